(** The published message digests: MD5 as in RFC 1321, SHA-1 and SHA-256 as in
    FIPS 180-4, written as rolled loops over their step functions, and the
    padding they share.  Nothing here is taken from the library: tables are
    decimal and checked against the numbers they are defined from (square and
    cube roots of primes) at the end of the file. *)
From Verif Require Import Base ByteIOSpec.
From Verif Require HashModel.

(** ** 32-bit words *)
Definition word (x : N) : Prop := x < 2 ^ 32.
Definition sum32 (l : list N) : N := fold_right N.add 0 l mod 2 ^ 32.
(** Rotation of a w-bit word: what leaves on one side comes back on the other. *)
Definition rotl (w n x : N) : N := (x * 2 ^ n) mod 2 ^ w + x / 2 ^ (w - n).
Definition rotr (w n x : N) : N := x / 2 ^ n + (x mod 2 ^ n) * 2 ^ (w - n).
Definition compl32 (x : N) : N := 2 ^ 32 - 1 - x.
Notation "x 'AND' y" := (N.land x y) (at level 40, left associativity).
Notation "x 'OR' y" := (N.lor x y) (at level 50, left associativity).
Notation "x 'XOR' y" := (N.lxor x y) (at level 50, left associativity).
Fixpoint sums32 (l m : list N) : list N :=
  match l, m with x :: l', y :: m' => sum32 [x; y] :: sums32 l' m' | _, _ => [] end.

(** ** MD5 (RFC 1321, section 3.4) *)
Definition md5_f (i : nat) (x y z : N) : N :=
  match (i / 16)%nat with
  | 0%nat => (x AND y) OR (compl32 x AND z)
  | 1%nat => (x AND z) OR (y AND compl32 z)
  | 2%nat => x XOR y XOR z
  | _ => y XOR (x OR compl32 z)
  end.
Definition md5_g (i : nat) : nat :=
  match (i / 16)%nat with
  | 0%nat => i
  | 1%nat => ((5 * i + 1) mod 16)%nat
  | 2%nat => ((3 * i + 5) mod 16)%nat
  | _ => ((7 * i) mod 16)%nat
  end.
Definition md5_s (i : nat) : N :=
  nth (i mod 4)%nat (match (i / 16)%nat with
                     | 0%nat => [7; 12; 17; 22]
                     | 1%nat => [5; 9; 14; 20]
                     | 2%nat => [4; 11; 16; 23]
                     | _ => [6; 10; 15; 21]
                     end) 0.
(** T[i] is the integer part of 2^32 times abs(sin(i)), i = 1 .. 64 in radians. *)
Definition md5_T : list N :=
  [3614090360; 3905402710; 606105819; 3250441966; 4118548399; 1200080426;
   2821735955; 4249261313; 1770035416; 2336552879; 4294925233; 2304563134;
   1804603682; 4254626195; 2792965006; 1236535329; 4129170786; 3225465664;
   643717713; 3921069994; 3593408605; 38016083; 3634488961; 3889429448;
   568446438; 3275163606; 4107603335; 1163531501; 2850285829; 4243563512;
   1735328473; 2368359562; 4294588738; 2272392833; 1839030562; 4259657740;
   2763975236; 1272893353; 4139469664; 3200236656; 681279174; 3936430074;
   3572445317; 76029189; 3654602809; 3873151461; 530742520; 3299628645;
   4096336452; 1126891415; 2878612391; 4237533241; 1700485571; 2399980690;
   4293915773; 2240044497; 1873313359; 4264355552; 2734768916; 1309151649;
   4149444226; 3174756917; 718787259; 3951481745].
(** Step i of 64: a = b + ((a + f(b,c,d) + M[g] + T[i+1]) <<< s), and the four
    variables move on by one place. *)
Definition md5_step (M : list N) (v : list N) (i : nat) : list N :=
  match v with
  | [a; b; c; d] => [d; sum32 [b; rotl 32 (md5_s i) (sum32 [a; md5_f i b c d; nth (md5_g i) M 0; nth i md5_T 0])]; b; c]
  | _ => []
  end.
Definition md5_compress (h M : list N) : list N := sums32 h (fold_left (md5_step M) (seq 0 64) h).
Definition md5_iv : list N := map (order_value false) [[1;35;69;103]; [137;171;205;239]; [254;220;186;152]; [118;84;50;16]].

(** ** Choice, majority and parity (FIPS 180-4, section 4.1) *)
Definition Ch (x y z : N) : N := (x AND y) XOR (compl32 x AND z).
Definition Maj (x y z : N) : N := (x AND y) XOR (x AND z) XOR (y AND z).
Definition Parity (x y z : N) : N := x XOR y XOR z.

(** A message schedule: the words given, followed by [n] more, each computed
    from all those before it. *)
Fixpoint schedule (f : list N -> N) (n : nat) (W : list N) : list N :=
  match n with O => W | S n' => schedule f n' (W ++ [f W]) end.
(** W[t - k] where W holds the words before t. *)
Definition back (k : nat) (W : list N) : N := nth (length W - k) W 0.

(** ** SHA-1 (FIPS 180-4, sections 4.1.1, 4.2.1, 6.1.2) *)
Definition sha1_f (t : nat) (x y z : N) : N :=
  match (t / 20)%nat with 0%nat => Ch x y z | 1%nat => Parity x y z | 2%nat => Maj x y z | _ => Parity x y z end.
Definition sha1_k (t : nat) : N := nth (t / 20)%nat [1518500249; 1859775393; 2400959708; 3395469782] 0.
Definition sha1_word (W : list N) : N := rotl 32 1 (back 3 W XOR back 8 W XOR back 14 W XOR back 16 W).
Definition sha1_schedule (M : list N) : list N := schedule sha1_word 64 M.
Definition sha1_step (W : list N) (v : list N) (t : nat) : list N :=
  match v with
  | [a; b; c; d; e] => [sum32 [rotl 32 5 a; sha1_f t b c d; e; sha1_k t; nth t W 0]; a; rotl 32 30 b; c; d]
  | _ => []
  end.
Definition sha1_compress (h M : list N) : list N := sums32 h (fold_left (sha1_step (sha1_schedule M)) (seq 0 80) h).
Definition sha1_iv : list N := md5_iv ++ [order_value false [240;225;210;195]].

(** ** SHA-256 (FIPS 180-4, sections 4.1.2, 4.2.2, 6.2.2) *)
Definition Sigma0 (x : N) : N := rotr 32 2 x XOR rotr 32 13 x XOR rotr 32 22 x.
Definition Sigma1 (x : N) : N := rotr 32 6 x XOR rotr 32 11 x XOR rotr 32 25 x.
Definition sigma0 (x : N) : N := rotr 32 7 x XOR rotr 32 18 x XOR (x / 2 ^ 3).
Definition sigma1 (x : N) : N := rotr 32 17 x XOR rotr 32 19 x XOR (x / 2 ^ 10).
(** The first 32 bits of the fractional parts of the cube roots of the first 64 primes. *)
Definition sha256_k : list N :=
  [1116352408; 1899447441; 3049323471; 3921009573; 961987163; 1508970993;
   2453635748; 2870763221; 3624381080; 310598401; 607225278; 1426881987;
   1925078388; 2162078206; 2614888103; 3248222580; 3835390401; 4022224774;
   264347078; 604807628; 770255983; 1249150122; 1555081692; 1996064986;
   2554220882; 2821834349; 2952996808; 3210313671; 3336571891; 3584528711;
   113926993; 338241895; 666307205; 773529912; 1294757372; 1396182291;
   1695183700; 1986661051; 2177026350; 2456956037; 2730485921; 2820302411;
   3259730800; 3345764771; 3516065817; 3600352804; 4094571909; 275423344;
   430227734; 506948616; 659060556; 883997877; 958139571; 1322822218;
   1537002063; 1747873779; 1955562222; 2024104815; 2227730452; 2361852424;
   2428436474; 2756734187; 3204031479; 3329325298].
(** The first 32 bits of the fractional parts of the square roots of the first 8 primes. *)
Definition sha256_iv : list N :=
  [1779033703; 3144134277; 1013904242; 2773480762; 1359893119; 2600822924; 528734635; 1541459225].
Definition sha256_word (W : list N) : N := sum32 [sigma1 (back 2 W); back 7 W; sigma0 (back 15 W); back 16 W].
Definition sha256_schedule (M : list N) : list N := schedule sha256_word 48 M.
Definition sha256_step (W : list N) (v : list N) (t : nat) : list N :=
  match v with
  | [a; b; c; d; e; f; g; h] =>
      let T1 := sum32 [h; Sigma1 e; Ch e f g; nth t sha256_k 0; nth t W 0] in
      let T2 := sum32 [Sigma0 a; Maj a b c] in
      [sum32 [T1; T2]; a; b; c; sum32 [d; T1]; e; f; g]
  | _ => []
  end.
Definition sha256_compress (h M : list N) : list N := sums32 h (fold_left (sha256_step (sha256_schedule M)) (seq 0 64) h).

(** ** Padding and chaining (RFC 1321, sections 3.1 to 3.5; FIPS 180-4, section 5) *)

(** A one bit, the fewest zero bits that leave room for the length in the last
    block, and the length of the message in bits as a 64-bit number. *)
Definition pad_with (be : bool) (bits : N) (m : list N) : list N :=
  m ++ [128] ++ repeat 0 ((119 - length m mod 64) mod 64)%nat ++ order_bytes be 8 bits.
Definition pad (be : bool) (m : list N) : list N := pad_with be (8 * size m mod 2 ^ 64) m.

Definition blocks (l : list N) : list (list N) :=
  map (fun i => section l (64 * N.of_nat i) 64) (seq 0 (length l / 64)).
Definition block_words (be : bool) (block : list N) : list N :=
  map (fun i => order_value be (section block (4 * N.of_nat i) 4)) (seq 0 16).

Definition chain_over (be : bool) (compress : list N -> list N -> list N) (iv l : list N) : list N :=
  fold_left (fun h b => compress h (block_words be b)) (blocks l) iv.
Definition output (be : bool) (h : list N) : list N := concat (map (order_bytes be 4) h).
Definition hash_of (be : bool) (compress : list N -> list N -> list N) (iv m : list N) : list N :=
  output be (chain_over be compress iv (pad be m)).

Definition MD5 (m : list N) : list N := hash_of false md5_compress md5_iv m.
Definition SHA1 (m : list N) : list N := hash_of true sha1_compress sha1_iv m.
Definition SHA256 (m : list N) : list N := hash_of true sha256_compress sha256_iv m.

(** ** The tables are what the standards say *)
Definition first_primes : list N :=
  [2; 3; 5; 7; 11; 13; 17; 19; 23; 29; 31; 37; 41; 43; 47; 53;
   59; 61; 67; 71; 73; 79; 83; 89; 97; 101; 103; 107; 109; 113; 127; 131;
   137; 139; 149; 151; 157; 163; 167; 173; 179; 181; 191; 193; 197; 199; 211; 223;
   227; 229; 233; 239; 241; 251; 257; 263; 269; 271; 277; 281; 283; 293; 307; 311].
(** [first_primes] is the increasing list of all primes up to 311. *)
Definition divides (d n : N) : bool := n mod d =? 0.
Definition primeb (n : N) : bool :=
  (2 <=? n) && forallb (fun d => negb (divides (N.of_nat d) n)) (seq 2 (N.to_nat n - 2)).
Example first_primes_ok : filter primeb (map N.of_nat (seq 0 312)) = first_primes /\ length first_primes = 64%nat.
Proof. split; vm_compute; reflexivity. Qed.

(** k is the first 32 bits of the fractional part of the n-th root of p. *)
Definition root_fraction (n p k : N) : Prop :=
  k < 2 ^ 32 /\ exists a, (a * 2 ^ 32 + k) ^ n <= p * 2 ^ (32 * n) < (a * 2 ^ 32 + k + 1) ^ n.

Definition root_fractionb (n p k : N) : bool :=
  (k <? 2 ^ 32) &&
  existsb (fun a => ((a * 2 ^ 32 + k) ^ n <=? p * 2 ^ (32 * n)) && (p * 2 ^ (32 * n) <? (a * 2 ^ 32 + k + 1) ^ n))
          [1; 2; 3; 4; 5; 6].
Lemma root_fractionb_ok n p k : root_fractionb n p k = true -> root_fraction n p k.
Proof.
  unfold root_fractionb, root_fraction. rewrite andb_true_iff, existsb_exists.
  intros (H & a & _ & E). apply andb_true_iff in E as (E1 & E2).
  split; [now apply N.ltb_lt|]. exists a. split; [now apply N.leb_le | now apply N.ltb_lt].
Qed.
Lemma all_roots n ps ks :
  length ps = length ks -> forallb (fun q => root_fractionb n (fst q) (snd q)) (combine ps ks) = true ->
  Forall2 (root_fraction n) ps ks.
Proof.
  revert ks; induction ps as [|p ps IH]; intros [|k ks] L H; try discriminate; constructor.
  - apply root_fractionb_ok. cbn in H. now apply andb_true_iff in H as (? & _).
  - apply IH; [now injection L|]. cbn in H. now apply andb_true_iff in H as (_ & ?).
Qed.
Lemma sha256_k_ok : Forall2 (root_fraction 3) first_primes sha256_k.
Proof. apply all_roots; vm_compute; reflexivity. Qed.
Lemma sha256_iv_ok : Forall2 (root_fraction 2) (firstn 8 first_primes) sha256_iv.
Proof. apply all_roots; vm_compute; reflexivity. Qed.
(** SHA-1's constants are the integer parts of 2^30 times the square roots of 2, 3, 5 and 10. *)
Lemma sha1_k_ok : map (fun n => N.sqrt (n * 2 ^ 60)) [2; 3; 5; 10] = map (fun i => sha1_k (20 * i)%nat) [0; 1; 2; 3]%nat.
Proof. vm_compute. reflexivity. Qed.

(** The digests returned by a history of calls when digest() leaves the padding
    in the hasher: every later call works on the padded message. *)
Fixpoint digests_of (be : bool) (hash : list N -> list N) (m : list N) (calls : list HashModel.hash_call) : list (list N) :=
  match calls with
  | [] => []
  | HashModel.Feed c :: t => digests_of be hash (m ++ c) t
  | HashModel.Ask _ _ :: t => hash m :: digests_of be hash (pad be m) t
  end.
