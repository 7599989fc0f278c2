(** C139: exception messages whatever the length of the arguments, and without memory. *)
From Coq Require Import Ascii String.
From Verif Require Import Base BaseLemmas FmtModel FmtSpec FmtProofs AtomSpec ExceptionModel ExceptionSpec ExceptionProofs.

Lemma sub16_le n o : o <= n -> n < 65536 -> sub16 n o = n - o.
Proof. intros. unfold sub16, sub_wrap. change (2 ^ 16) with 65536. rewrite (N.mod_small n), (N.mod_small o) by lia. replace (n + 65536 - o) with (n - o + 1 * 65536) by lia. rewrite N.mod_add by lia. apply N.mod_small. lia. Qed.
Lemma sub16_gt n o : n < o -> o < 65536 -> sub16 n o = n + 65536 - o.
Proof. intros. unfold sub16, sub_wrap. change (2 ^ 16) with 65536. rewrite (N.mod_small n), (N.mod_small o) by lia. apply N.mod_small. lia. Qed.
Lemma u16_small x : x < 65536 -> u16 x = x.
Proof. intros. unfold u16. now apply N.mod_small. Qed.

(** Appending a view copies what there is room for. *)
Lemma append_cut n t w d : n < 2 ^ 16 -> writing n t w -> exists w', sw_append w d = Ret w' /\ writing n (t ++ ntake (n - size t) d) w'.
Proof.
  intros B W. destruct (N.leb_spec (size t + size d) n) as [L|L].
  - rewrite ntake_all by lia. now apply append_writing.
  - destruct (append_writing n t w (ntake (n - size t) d) B W) as (w' & E & W').
    { rewrite size_ntake. destruct W as (W & _). lia. }
    exists w'. split; [|exact W']. rewrite <- E. destruct W as (L2 & ->). unfold sw_append, sw_remaining. cbn [sw_size sw_offset].
    change (2 ^ 16) with 65536 in B. rewrite sub16_le by lia. rewrite size_ntake.
    replace (N.min (N.min (n - size t) (size d)) (n - size t)) with (n - size t) by lia. replace (N.min (size d) (n - size t)) with (n - size t) by lia.
    rewrite ntake_ntake. now replace (N.min (n - size t) (n - size t)) with (n - size t) by lia.
Qed.

(** The position is beyond the memory. *)
Definition past (n o : N) (w : swriter) : Prop :=
  sw_size w = n /\ sw_offset w = o /\ n < o < 65536 /\ match sw_buffer w with Some b => size b = n + 1 | None => True end.
Lemma past_append n o w d : past n o w -> d <> [] -> sw_append w d = UB.
Proof.
  intros (A & B & L & S0) ND. unfold sw_append, sw_remaining. rewrite A, B, sub16_gt by lia.
  assert (0 < size d) by (destruct d; [congruence|rewrite size_cons; lia]).
  unfold sw_store. rewrite size_ntake. destruct (N.eqb_spec (N.min (N.min (size d) (n + 65536 - o)) (size d)) 0); [lia|].
  destruct (sw_buffer w) as [b|]; [|reflexivity]. rewrite B, S0. destruct (N.ltb_spec (n + 1) (o + N.min (N.min (size d) (n + 65536 - o)) (size d))); [reflexivity|lia].
Qed.
Lemma past_format n o w d : past n o w -> sw_format w d = UB.
Proof.
  intros (A & B & L & S0). unfold sw_format, sw_remaining. rewrite A, B, sub16_gt by lia.
  destruct (N.eqb_spec (n + 65536 - o) 0); [lia|]. unfold sw_store. rewrite size_app. change (size [0]) with 1.
  match goal with |- context [?x + 1 =? 0] => destruct (N.eqb_spec (x + 1) 0); [lia|] end.
  destruct (sw_buffer w) as [b|]; [|reflexivity]. rewrite B, S0. match goal with |- context [n + 1 <? ?x] => destruct (N.ltb_spec (n + 1) x); [reflexivity|lia] end.
Qed.
Lemma overwrite_size (b : list N) o d : o + size d <= size b -> size (overwrite b o d) = size b.
Proof. intros. unfold overwrite. rewrite !size_app, size_ntake, size_ndrop. lia. Qed.
(** Formatting more than there is room for. *)
Lemma format_past n t w d : n < 65536 -> writing n t w -> n < size t + size d < 65536 ->
  exists w', sw_format w d = Ret w' /\ past n (size t + size d) w'.
Proof.
  intros B (L & ->) H. unfold sw_format, sw_remaining. cbn [sw_size sw_offset]. rewrite sub16_le by lia.
  assert (Sb : size (t ++ repeat 0 (N.to_nat (n + 1 - size t))) = n + 1).
  { rewrite size_app. unfold size at 2. rewrite repeat_length. lia. }
  unfold sw_store. cbn [sw_buffer sw_offset]. destruct (N.eqb_spec (n - size t) 0).
  - change (size (@nil N)) with 0. cbn [N.eqb bind]. eexists. split; [reflexivity|]. unfold past. cbn [sw_size sw_offset sw_buffer].
    rewrite u16_small by lia. rewrite Sb. lia.
  - rewrite size_app, size_ntake. change (size [0]) with 1. destruct (N.eqb_spec (N.min (n - size t - 1) (size d) + 1) 0); [lia|].
    rewrite Sb. destruct (N.ltb_spec (n + 1) (size t + (N.min (n - size t - 1) (size d) + 1))); [lia|]. cbn [bind].
    eexists. split; [reflexivity|]. unfold past. cbn [sw_size sw_offset sw_buffer]. rewrite u16_small by lia.
    rewrite overwrite_size by (rewrite size_app, size_ntake, Sb; change (size [0]) with 1; lia). rewrite Sb. lia.
Qed.

Lemma size_decz z : (- 2 ^ 31 <= z < 2 ^ 31)%Z -> 1 <= size (decz z) <= 21.
Proof.
  intros H. unfold decz. destruct (Z.ltb_spec z 0).
  - rewrite size_cons. pose proof (dec_size (Z.to_N (- z))). change (2 ^ 31)%Z with 2147483648%Z in H. change (2 ^ 64) with 18446744073709551616 in *. lia.
  - pose proof (dec_size (Z.to_N z)). pose proof (dec_pos (Z.to_N z)). change (2 ^ 31)%Z with 2147483648%Z in H. change (2 ^ 64) with 18446744073709551616 in *. lia.
Qed.

(** ** Each formatter *)

(** Views only: the first characters, as many as a 16-bit length says. *)
Lemma join_any lhs rhs delim : exists s, formatErrorStringJoin true lhs rhs delim = Ret s /\
  let t := lhs ++ delim ++ rhs in holds_text s (ntake (size t mod 2 ^ 16) t).
Proof.
  unfold formatErrorStringJoin. set (n := u16 _). assert (B : n < 2 ^ 16) by (apply N.mod_upper_bound; discriminate).
  start n. destruct (append_cut n [] w0 lhs B W) as (w1 & -> & W1). cbn [bind]. destruct (append_cut n _ w1 delim B W1) as (w2 & -> & W2). cbn [bind].
  destruct (append_cut n _ w2 rhs B W2) as (w3 & -> & W3). cbn [bind]. eexists. split; [reflexivity|]. eapply holds_build.
  cbv zeta. rewrite (@size_nil N), N.sub_0_r in W3. cbn [app] in W3.
  replace (size (lhs ++ delim ++ rhs) mod 2 ^ 16) with n by (unfold n, u16; f_equal; rewrite !size_app; lia).
  replace (ntake n (lhs ++ delim ++ rhs)) with ((ntake n lhs ++ ntake (n - size (ntake n lhs)) delim) ++ ntake (n - size (ntake n lhs ++ ntake (n - size (ntake n lhs)) delim)) rhs); [exact W3|].
  rewrite <- app_assoc. rewrite !ntake_app. f_equal. replace (n - size (ntake n lhs)) with (n - size lhs) by (rewrite size_ntake; lia). f_equal.
  f_equal. rewrite size_app, !size_ntake. lia.
Qed.

(** Memory reserved for a message with a range. *)
Definition range_room (subject name reason : list N) (i a b : N) : N :=
  size subject + 3 + size name + 3 + size (dec i) + 2 + size reason + 3 + size (dec a) + 3 + size (dec b) + 2.
Lemma range_room_used subject name reason i a b : i < 2 ^ 64 -> a < 2 ^ 64 -> b < 2 ^ 64 ->
  measure_view subject + measure_lit (lit " '") + measure_view name + measure_lit (lit "'=")
  + measure_num (dec i) + measure_lit (lit " ") + measure_view reason + measure_lit (lit " [")
  + measure_num (dec a) + measure_lit (lit ", ") + measure_num (dec b) + measure_lit (lit ")") = range_room subject name reason i a b.
Proof.
  intros Hi Ha Hb. unfold measure_view, measure_num, range_room. pose proof (dec_size i Hi). pose proof (dec_size a Ha). pose proof (dec_size b Hb).
  rewrite !u16_small by lia. reflexivity.
Qed.
Definition range_words (subject name reason : list N) (i a b : N) : list N :=
  subject ++ named name ++ dec i ++ lit " " ++ reason ++ lit " [" ++ dec a ++ lit ", " ++ dec b ++ lit ")".
Lemma range_fits subject name reason i a b : i < 2 ^ 64 -> a < 2 ^ 64 -> b < 2 ^ 64 ->
  range_room subject name reason i a b < 65536 ->
  exists s, formatIndexOutOfRangeError true subject name reason i a b = Ret s /\ holds_text s (range_words subject name reason i a b).
Proof.
  intros Hi Ha Hb H. unfold formatIndexOutOfRangeError. rewrite range_room_used by assumption. set (n := range_room _ _ _ _ _ _) in *.
  rewrite u16_small by exact H. assert (B : n < 2 ^ 16) by exact H.
  assert (E0 : n = size subject + 3 + size name + 3 + size (dec i) + 2 + size reason + 3 + size (dec a) + 3 + size (dec b) + 2) by reflexivity. clearbody n.
  assert (SN : size (named name) <= size name + 4 /\ (name = [] -> size (named name) = 2)).
  { unfold named. destruct name as [|c name]; [split; [vm_compute; discriminate|reflexivity]|]. sizes. split; [lia|discriminate]. }
  start n. put_piece.
  assert (M : exists w', (if negb (size name =? 0)
            then let! w1 := sw_format w (lit " '") in let! w1 := sw_append w1 name in sw_format w1 (lit "'=")
            else sw_format w (lit ": ")) = Ret w' /\ writing n (subject ++ named name) w').
  { unfold named. destruct name as [|c name]; cbn [app] in W0.
    - cbn [negb]. change (size (@nil N) =? 0) with true. cbn [negb].
      destruct (format_writing n subject w (lit ": ")) as (w' & E & W'); [assumption|assumption|sizes; lia|]. exists w'. split; assumption.
    - destruct (N.eqb_spec (size (c :: name)) 0) as [X|X]; [rewrite size_cons in X; lia|]. cbn [negb].
      do 2 put_piece. match goal with W : writing _ ?t ?w |- context [sw_format ?w ?d] => destruct (format_writing n t w d) as (w' & E & W'); [assumption|assumption|sizes; lia|] end.
      exists w'. split; [exact E|]. rewrite <- !app_assoc in W'. exact W'. }
  destruct M as (w1 & -> & W1). cbn [bind]. clear W0. repeat put_piece. eexists. split; [reflexivity|].
  eapply holds_build. unfold range_words. rewrite <- !app_assoc in *. cbn [app] in *. eassumption.
Qed.
Lemma wrapped x : 65536 <= x < 131072 -> u16 x = x - 65536.
Proof. intros. unfold u16. change (2 ^ 16) with 65536. symmetry. apply (N.mod_unique _ _ 1); lia. Qed.
Lemma cut_full n (t d : list N) : size t <= n -> n <= size t + size d -> size (t ++ ntake (n - size t) d) = n.
Proof. intros. rewrite size_app, size_ntake. lia. Qed.
Lemma range_over subject name reason i a b : i < 2 ^ 64 -> a < 2 ^ 64 -> b < 2 ^ 64 -> size reason = 15 ->
  (name = [] /\ size subject < 65536) \/ (size subject = 5 /\ size name < 65536) ->
  65536 <= range_room subject name reason i a b -> formatIndexOutOfRangeError true subject name reason i a b = UB.
Proof.
  intros Hi Ha Hb R15 K H. unfold formatIndexOutOfRangeError. rewrite range_room_used by assumption.
  pose proof (dec_size i Hi). pose proof (dec_size a Ha). pose proof (dec_size b Hb). pose proof (dec_pos i).
  unfold range_room in *. set (n0 := _ + 2) in *. assert (E0 : n0 = size subject + 3 + size name + 3 + size (dec i) + 2 + size reason + 3 + size (dec a) + 3 + size (dec b) + 2) by reflexivity.
  clearbody n0. assert (n0 < 131072) by (destruct K as [(-> & K)|(K & K2)]; [change (size (@nil N)) with 0 in *|]; lia).
  rewrite wrapped by lia. set (n := n0 - 65536). assert (B : n < 65536) by (unfold n; lia). assert (B' : n < 2 ^ 16) by exact B.
  start n. destruct (append_cut n [] w0 subject B' W) as (w1 & -> & W1). cbn [bind]. change (size (@nil N)) with 0 in W1. rewrite N.sub_0_r in W1. cbn [app] in W1.
  destruct K as [(-> & K)|(K & K2)].
  - change (size (@nil N) =? 0) with true. cbn [negb]. change (size (@nil N)) with 0 in *.
    destruct (format_past n _ w1 (lit ": ") B W1) as (w2 & -> & P); [rewrite size_ntake; sizes; unfold n in *; lia|]. cbn [bind].
    now rewrite (past_format _ _ _ _ P).
  - destruct name as [|c name]; [change (size (@nil N)) with 0 in *; lia|]. destruct (N.eqb_spec (size (c :: name)) 0) as [Z|Z]; [lia|]. cbn [negb].
    destruct (N.leb_spec n 6) as [L|L].
    + destruct (format_past n _ w1 (lit " '") B W1) as (w2 & -> & P); [rewrite size_ntake; sizes; unfold n in *; lia|]. cbn [bind].
      rewrite (past_append _ _ _ _ P) by discriminate. reflexivity.
    + rewrite ntake_all in W1 by lia. assert (exists w2, sw_format w1 (lit " '") = Ret w2 /\ exists t2, writing n t2 w2 /\ size t2 = 7) as (w2 & -> & t2 & W2 & S2).
      { destruct (N.eq_dec n 7) as [E7|N7].
        - rewrite E7 in *. clear E7. destruct W1 as (L1 & ->). exists (mkSW 7 7 (Some (subject ++ [32; 0; 0]))).
          assert (length subject = 5%nat) as L5 by (unfold size in K; lia).
          destruct subject as [|x1 [|x2 [|x3 [|x4 [|x5 [|x6 subject]]]]]]; try discriminate L5. split; [reflexivity|].
          exists ([x1; x2; x3; x4; x5] ++ [32; 0]). split; [|reflexivity]. split; [vm_compute; discriminate|reflexivity].
        - destruct (format_writing n _ w1 (lit " '") B' W1) as (w2 & E & W2); [sizes; lia|]. exists w2. split; [exact E|].
          eexists. split; [exact W2|]. sizes. lia. }
      cbn [bind]. destruct (append_cut n _ w2 (c :: name) B' W2) as (w3 & -> & W3). cbn [bind].
      destruct (format_past n _ w3 (lit "'=") B W3) as (w4 & -> & P); [rewrite cut_full by (unfold n in *; lia); sizes; unfold n in *; lia|]. cbn [bind].
      now rewrite (past_format _ _ _ _ P).
Qed.

Lemma errno_any strerror code msg : (- 2 ^ 31 <= code < 2 ^ 31)%Z -> size msg < 65536 -> size (strerror code) < 2 ^ 15 ->
  let t := msg ++ lit "[" ++ decz code ++ lit "]: " ++ strerror code in
  (size t + 2 < 65536 -> exists s, formatErrono true strerror code msg = Ret s /\ holds_text s t) /\
  (65536 <= size t + 2 -> formatErrono true strerror code msg = UB).
Proof.
  intros Hc Hm Hs t. split; [apply errno_text|]. intros L. unfold t in L. clear t. pose proof (size_decz code Hc) as D. sizes. change (2 ^ 15) with 32768 in *.
  unfold formatErrono, measure_view, measure_num. change (measure_lit (lit "[")) with 2. change (measure_lit (lit "]: ")) with 4.
  rewrite (u16_small (size (strerror code))), (u16_small (size (decz code))) by lia. rewrite (ntake_all _ (strerror code)) by lia.
  rewrite wrapped by lia. set (n := _ - 65536). assert (B : n < 65536) by (unfold n; lia). assert (B' : n < 2 ^ 16) by exact B.
  start n. destruct (append_cut n [] w0 msg B' W) as (w1 & -> & W1). cbn [bind]. change (size (@nil N)) with 0 in W1. rewrite N.sub_0_r in W1. cbn [app] in W1.
  destruct (format_past n _ w1 (lit "[") B W1) as (w2 & -> & P); [rewrite size_ntake; sizes; unfold n in *; lia|]. cbn [bind].
  now rewrite (past_format _ _ _ _ P).
Qed.

(** The name of an illegal argument: 65533 to 65535 characters spoil the message, and
    65515 to 65532 lead past its memory. *)
Lemma illegal_any name : size name < 65536 ->
  let t := lit "Illegal argument '" ++ name ++ lit "'" in
  (size name < 65515 -> exists s, formatIlligalArgName true name = Ret s /\ holds_text s t) /\
  (65515 <= size name < 65533 -> formatIlligalArgName true name = UB) /\
  (size name = 65533 -> formatIlligalArgName true name = Ret (mkES 19 (Some (lit "Illegal argument " ++ [0; 0])))) /\
  (65533 < size name -> formatIlligalArgName true name = Ret (mkES (size name - 65514) (Some (lit "Illegal argument '" ++ ntake (size name - 65533) name ++ [0])))).
Proof.
  intros Hn t. assert (R : formatIlligalArgName true name =
    let! w := sw_format (sw_new true (u16 (size name + 21))) (lit "Illegal argument '") in let! w := sw_append w name in let! w := sw_format w (lit "'") in Ret (sw_build w)).
  { unfold formatIlligalArgName, measure_view. change (measure_lit (lit "Illegal argument '")) with 19. change (measure_lit (lit "'")) with 2.
    now replace (19 + size name + 2) with (size name + 21) by lia. }
  split; [intros L; apply illegal_text; sizes; change (2 ^ 16) with 65536; lia|].
  rewrite R. clear R t. split; [|split].
  - intros L. rewrite wrapped by lia. set (n := _ - 65536). assert (B : n < 65536) by (unfold n; lia).
    start n. destruct (format_past n _ w0 (lit "Illegal argument '") B W) as (w1 & -> & P); [sizes; unfold n; lia|]. cbn [bind].
    rewrite (past_append _ _ _ _ P); [reflexivity|]. intros ->. change (size (@nil N)) with 0 in L. lia.
  - intros L. rewrite L. change (u16 (65533 + 21)) with 18.
    change (sw_format (sw_new true 18) (lit "Illegal argument '")) with (Ret (mkSW 18 18 (Some (lit "Illegal argument " ++ [0; 0])))). cbn [bind].
    unfold sw_append, sw_remaining. cbn [sw_size sw_offset]. change (sub16 18 18) with 0. rewrite N.min_0_r, ntake_0. reflexivity.
  - intros L. rewrite wrapped by lia. assert (exists c1 c2 r, name = c1 :: c2 :: r) as (c1 & c2 & r & ->).
    { destruct name as [|c1 [|c2 r]]; [change (size (@nil N)) with 0 in L; lia|change (size [c1]) with 1 in L; lia|now exists c1, c2, r]. }
    set (k := size (c1 :: c2 :: r)) in *. assert (k = 65534 \/ k = 65535) as [E|E] by lia; rewrite E.
    + change (65534 + 21 - 65536) with 19. change (65534 - 65514) with 20. change (65534 - 65533) with 1.
      change (sw_format (sw_new true 19) (lit "Illegal argument '")) with (Ret (mkSW 19 18 (Some (lit "Illegal argument '" ++ [0; 0])))). cbn [bind].
      unfold sw_append, sw_remaining. cbn [sw_size sw_offset]. change (sub16 19 18) with 1. fold k. rewrite E. change (N.min 65534 1) with 1.
      change (ntake 1 (c1 :: c2 :: r)) with [c1]. reflexivity.
    + change (65535 + 21 - 65536) with 20. change (65535 - 65514) with 21. change (65535 - 65533) with 2.
      change (sw_format (sw_new true 20) (lit "Illegal argument '")) with (Ret (mkSW 20 18 (Some (lit "Illegal argument '" ++ [0; 0; 0])))). cbn [bind].
      unfold sw_append, sw_remaining. cbn [sw_size sw_offset]. change (sub16 20 18) with 2. fold k. rewrite E. change (N.min 65535 2) with 2.
      replace (ntake 2 (c1 :: c2 :: r)) with [c1; c2] by (rewrite ntake_firstn; reflexivity). reflexivity.
Qed.

(** ** All exceptions *)

(** C strings are cut to a 16-bit length when they are viewed. *)
Definition cut16 (s : list N) : list N := firstn (N.to_nat (N.of_nat (length s) mod 2 ^ 16)) s.
Definition viewed (e : exc) : exc :=
  match e with
  | OutOfRangeIn i a b p => OutOfRangeIn i a b (option_map cut16 p)
  | InvalidStateTag p => InvalidStateTag (option_map cut16 p)
  | e => e
  end.
(** Arguments of the types of the constructors. *)
Definition exc_ok (e : exc) : Prop :=
  match e with
  | Plain m => size m < 2 ^ 16
  | IllegalArgumentNamed n | NoSuchElementNamed n => size n < 2 ^ 16
  | OutOfRangeOf i a b | OutOfRangeIn i a b _ | OverflowOf i a b => i < 2 ^ 64 /\ a < 2 ^ 64 /\ b < 2 ^ 64
  | OverflowNamed n i a b => size n < 2 ^ 16 /\ i < 2 ^ 64 /\ a < 2 ^ 64 /\ b < 2 ^ 64
  | IOError c => (- 2 ^ 31 <= c < 2 ^ 31)%Z
  | IOErrorMsg c m => (- 2 ^ 31 <= c < 2 ^ 31)%Z /\ size m < 2 ^ 16
  | _ => True
  end.
(** Memory reserved beyond the text: a NUL for each literal; and for messages without a
    name, the literals that would surround it. *)
Definition slack (e : exc) : N :=
  match e with
  | IllegalArgumentNamed _ | IOError _ | IOErrorMsg _ _ => 2
  | OverflowNamed [] _ _ _ | OutOfRangeOf _ _ _ | OutOfRangeIn _ _ _ _ | OverflowOf _ _ _ => 8
  | OverflowNamed _ _ _ _ => 6
  | _ => 0
  end.
(** What becomes of an exception whose message is [t], if there is memory. *)
Inductive fate := Whole | Cut (shown : list N) | Overrun.
Definition fate_of (e : exc) (t : list N) : fate :=
  if size t + slack e <? 2 ^ 16 then Whole else
  match e with
  | NoSuchElementNamed _ | InvalidStateTag _ => Cut (cut16 t)
  | IllegalArgumentNamed n =>
      if size n <? 65533 then Overrun
      else if size n =? 65533 then Cut (lit "Illegal argument " ++ [0; 0])
      else Cut (lit "Illegal argument '" ++ firstn (N.to_nat (size n - 65533)) n ++ [0])
  | _ => Overrun
  end.

Lemma cut16_ntake s : cut16 s = ntake (u16 (size s)) s.
Proof. unfold cut16. now rewrite ntake_firstn. Qed.
Lemma cut16_size s : size (cut16 s) < 65536.
Proof. rewrite cut16_ntake, size_ntake. assert (u16 (size s) < 65536) by (apply N.mod_upper_bound; discriminate). lia. Qed.
Lemma from_cstr_cut p : from_cstr p = match option_map cut16 p with Some s => s | None => [] end.
Proof. destruct p as [s|]; [|reflexivity]. cbn [from_cstr option_map]. now rewrite cut16_ntake. Qed.

Lemma build_range_of m st i a b :
  exc_build m st (OutOfRangeOf i a b) = formatIndexOutOfRangeError m (lit "Index out of range") [] (lit "is out of range") i a b.
Proof. unfold exc_build. exact eq_refl. Qed.
Lemma build_overflow_of m st i a b :
  exc_build m st (OverflowOf i a b) = formatIndexOutOfRangeError m (lit "Value") [] (lit "overflows range") i a b.
Proof. unfold exc_build. exact eq_refl. Qed.
Lemma build_overflow_named m st n i a b :
  exc_build m st (OverflowNamed n i a b) = formatIndexOutOfRangeError m (lit "Value") n (lit "overflows range") i a b.
Proof. unfold exc_build. exact eq_refl. Qed.

(** Every exception: the full message, a cut one, or memory overrun. *)
Theorem C139_message : forall strerror e t, exc_ok e -> (forall c, size (strerror c) < 2 ^ 15) -> exc_text strerror (viewed e) t ->
  match fate_of e t with
  | Overrun => exc_build true strerror e = UB
  | Whole => exists s, exc_build true strerror e = Ret s /\ es_view s = Ret t /\ es_cstr s = Ret (c_string t)
  | Cut u => exists s, exc_build true strerror e = Ret s /\ es_view s = Ret u /\ es_cstr s = Ret (c_string u)
  end.
Proof.
  intros strerror e t OK HS T.
  assert (G : forall u, (exists s, exc_build true strerror e = Ret s /\ holds_text s u) ->
    exists s, exc_build true strerror e = Ret s /\ es_view s = Ret u /\ es_cstr s = Ret (c_string u)).
  { intros u (s & E & H). exists s. split; [exact E|]. split; [now apply holds_view|now apply holds_cstr]. }
  change (2 ^ 16) with 65536 in *.
  assert (RG : forall subject name reason i a b, i < 2 ^ 64 -> a < 2 ^ 64 -> b < 2 ^ 64 -> size reason = 15 ->
    (name = [] /\ size subject < 65536) \/ (size subject = 5 /\ size name < 65536) -> range_text subject name reason i a b t ->
    range_room subject name reason i a b = size t + (match name with [] => 8 | _ => 6 end) /\
    (range_room subject name reason i a b < 65536 -> exists s, formatIndexOutOfRangeError true subject name reason i a b = Ret s /\ holds_text s t) /\
    (65536 <= range_room subject name reason i a b -> formatIndexOutOfRangeError true subject name reason i a b = UB)).
  { intros subject name reason i a b Hi Ha Hb R15 K (di & da & db & Di & Da & Db & ->). apply decimal_dec in Di, Da, Db. subst di da db. split; [|split].
    - unfold range_room. destruct name; sizes; [change (size (@nil N)) with 0; lia|]. lia.
    - intros L. destruct (range_fits subject name reason i a b Hi Ha Hb L) as (s & E & H). exists s. split; [exact E|]. exact H.
    - now apply range_over. }
  unfold fate_of. destruct e; cbn [exc_text viewed exc_ok slack] in *; change (2 ^ 16) with 65536 in *.
  - cbn [exc_build] in *. subst t. destruct (N.ltb_spec (size message + 0) 65536); [|lia]. apply G, holds_make.
  - cbn [exc_build] in *. subst t. apply G, holds_make.
  - cbn [exc_build] in *. subst t. destruct (illegal_any name OK) as (F1 & F2 & F3 & F4). sizes. destruct (N.ltb_spec (18 + (size name + 1) + 2) 65536) as [L|L].
    { apply G, F1. lia. }
    destruct (N.ltb_spec (size name) 65533) as [L2|L2]; [apply F2; lia|].
    destruct (N.eqb_spec (size name) 65533) as [E3|E3].
    + rewrite F3 by exact E3. eexists. split; [reflexivity|]. split; reflexivity.
    + rewrite F4 by lia. eexists. split; [reflexivity|]. rewrite <- ntake_firstn. set (u := ntake _ name). assert (size u = size name - 65533) as Su by (unfold u; rewrite size_ntake; lia).
      unfold es_view, es_cstr. cbn [es_message es_size].
      assert (size (lit "Illegal argument '" ++ u ++ [0]) = size name - 65514) as Sz by (sizes; rewrite Su; change (size [0]) with 1; lia).
      destruct (N.ltb_spec (size (lit "Illegal argument '" ++ u ++ [0])) (size name - 65514)); [lia|].
      rewrite ntake_all by lia. split; [reflexivity|].
      assert (existsb (N.eqb 0) (lit "Illegal argument '" ++ u ++ [0]) = true) as ->; [|reflexivity].
      apply existsb_exists. exists 0. split; [|reflexivity]. apply in_or_app. right. apply in_or_app. right. now left.
  - cbn [exc_build] in *. subst t. apply G, holds_make.
  - rewrite build_range_of in *. destruct OK as (Hi & Ha & Hb). pose proof (fun X K => RG _ _ _ _ _ _ Hi Ha Hb X K T) as Q. destruct (Q eq_refl (or_introl (conj eq_refl eq_refl))) as (E & F & O). rewrite E in *.
    destruct (N.ltb_spec (size t + 8) 65536); [now apply G, F|now apply O].
  - cbn [exc_build] in *. destruct OK as (Hi & Ha & Hb). rewrite <- from_cstr_cut in T. assert (size (from_cstr prefix) < 65536) as Hp.
    { rewrite from_cstr_cut. destruct prefix as [s|]; cbn [option_map]; [apply cut16_size|reflexivity]. }
    pose proof (fun X K => RG _ _ _ _ _ _ Hi Ha Hb X K T) as Q. destruct (Q eq_refl (or_introl (conj eq_refl Hp))) as (E & F & O). rewrite E in *.
    destruct (N.ltb_spec (size t + 8) 65536); [now apply G, F|now apply O].
  - rewrite build_overflow_of in *. destruct OK as (Hi & Ha & Hb). pose proof (fun X K => RG _ _ _ _ _ _ Hi Ha Hb X K T) as Q. destruct (Q eq_refl (or_introl (conj eq_refl eq_refl))) as (E & F & O). rewrite E in *.
    destruct (N.ltb_spec (size t + 8) 65536); [now apply G, F|now apply O].
  - rewrite build_overflow_named in *. destruct OK as (Hn & Hi & Ha & Hb). pose proof (fun X K => RG _ _ _ _ _ _ Hi Ha Hb X K T) as Q. destruct (Q eq_refl (or_intror (conj eq_refl Hn))) as (E & F & O). rewrite E in *.
    replace (match name with [] => 8 | _ :: _ => 6 end) with (match name with [] => 8 | _ => 6 end) by reflexivity.
    destruct (N.ltb_spec (size t + (match name with [] => 8 | _ :: _ => 6 end)) 65536); [now apply G, F|now apply O].
  - cbn [exc_build] in *. subst t. apply G, holds_make.
  - cbn [exc_build] in *. subst t. destruct (join_any (lit "No such element") name (lit " ")) as (s & E & H). change (lit "No such element" ++ lit " " ++ name) with (lit "No such element " ++ name) in H. cbv zeta in H.
    change (2 ^ 16) with 65536 in H. destruct (N.ltb_spec (size (lit "No such element " ++ name) + 0) 65536) as [L|L]; apply G; exists s; (split; [exact E|]).
    + rewrite N.mod_small, ntake_all in H by lia. exact H.
    + rewrite cut16_ntake. exact H.
  - cbn [exc_build] in *. subst t. apply G, holds_make.
  - cbn [exc_build] in *. subst t. rewrite <- from_cstr_cut. destruct (join_any (lit "Invalid State") (from_cstr tag) (lit " ")) as (s & E & H).
    change (lit "Invalid State" ++ lit " " ++ from_cstr tag) with (lit "Invalid State " ++ from_cstr tag) in H. cbv zeta in H.
    change (2 ^ 16) with 65536 in H. destruct (N.ltb_spec (size (lit "Invalid State " ++ from_cstr tag) + 0) 65536) as [L|L]; apply G; exists s; (split; [exact E|]).
    + rewrite N.mod_small, ntake_all in H by lia. exact H.
    + rewrite cut16_ntake. exact H.
  - cbn [exc_build] in *. destruct T as (d & D & ->). apply decimal_decz in D. subst d. destruct (errno_any strerror code (lit "IOException") OK eq_refl (HS code)) as (F & O). cbv zeta in F, O.
    change (lit "IOException" ++ lit "[" ++ decz code ++ lit "]: " ++ strerror code) with (lit "IOException[" ++ decz code ++ lit "]: " ++ strerror code) in F, O.
    destruct (N.ltb_spec (size (lit "IOException[" ++ decz code ++ lit "]: " ++ strerror code) + 2) 65536); [now apply G, F|now apply O].
  - cbn [exc_build] in *. destruct T as (d & D & ->). apply decimal_decz in D. subst d. destruct OK as (Hc & Hm). destruct (errno_any strerror code message Hc Hm (HS code)) as (F & O). cbv zeta in F, O.
    destruct (N.ltb_spec (size (message ++ lit "[" ++ decz code ++ lit "]: " ++ strerror code) + 2) 65536); [now apply G, F|now apply O].
  - cbn [exc_build] in *. subst t. apply G, holds_make.
Qed.
Print Assumptions C139_message.

(** Without memory, the messages that are joined from views are empty, and what() is no
    string; every other message that is not empty is undefined. *)
Theorem C139_no_memory : forall strerror e t, exc_ok e -> (forall c, size (strerror c) < 2 ^ 15) -> exc_text strerror (viewed e) t ->
  match e with
  | NoSuchElementNamed _ | InvalidStateTag _ => exists s, exc_build false strerror e = Ret s /\ es_view s = Ret [] /\ es_message s = None
  | _ => if size t =? 0 then exists s, exc_build false strerror e = Ret s /\ es_view s = Ret [] /\ es_message s = None else exc_build false strerror e = UB
  end.
Proof.
  intros strerror e t OK HS T. change (2 ^ 16) with 65536 in *.
  assert (NA : forall d, sw_append (mkSW 0 0 None) d = Ret (mkSW 0 0 None)).
  { intros d. unfold sw_append, sw_remaining. cbn [sw_size sw_offset]. change (sub16 0 0) with 0. rewrite N.min_0_r, ntake_0. reflexivity. }
  assert (NF : forall d, 0 < size d < 65536 -> exists w, sw_format (mkSW 0 0 None) d = Ret w /\ past 0 (size d) w).
  { intros d L. unfold sw_format, sw_remaining. cbn [sw_size sw_offset]. change (sub16 0 0) with 0. cbn [N.eqb]. unfold sw_store. change (size (@nil N) =? 0) with true.
    cbn [bind]. eexists. split; [reflexivity|]. unfold past. cbn [sw_size sw_offset sw_buffer]. rewrite N.add_0_l, u16_small by lia. lia. }
  assert (J : forall l r d, formatErrorStringJoin false l r d = Ret (mkES 0 None)).
  { intros. unfold formatErrorStringJoin, sw_new. rewrite NA. cbn [bind]. rewrite NA. cbn [bind]. rewrite NA. reflexivity. }
  assert (R : forall subject name reason i a b, formatIndexOutOfRangeError false subject name reason i a b = UB).
  { intros. unfold formatIndexOutOfRangeError, sw_new. rewrite NA. cbn [bind]. destruct name as [|c name].
    - change (size (@nil N) =? 0) with true. cbn [negb]. destruct (NF (lit ": ")) as (w & -> & P); [split; reflexivity|]. cbn [bind]. now rewrite (past_format _ _ _ _ P).
    - destruct (N.eqb_spec (size (c :: name)) 0) as [X|X]; [rewrite size_cons in X; lia|]. cbn [negb].
      destruct (NF (lit " '")) as (w & -> & P); [split; reflexivity|]. cbn [bind]. now rewrite (past_append _ _ _ _ P) by discriminate. }
  assert (E0 : forall c m, formatErrono false strerror c m = UB).
  { intros. unfold formatErrono, sw_new. rewrite NA. cbn [bind]. destruct (NF (lit "[")) as (w & -> & P); [split; reflexivity|]. cbn [bind]. now rewrite (past_format _ _ _ _ P). }
  assert (I0 : forall n, formatIlligalArgName false n = UB).
  { intros. unfold formatIlligalArgName, sw_new. destruct (NF (lit "Illegal argument '")) as (w & -> & P); [split; reflexivity|]. cbn [bind].
    destruct n as [|c n]; [|now rewrite (past_append _ _ _ _ P) by discriminate].
    unfold sw_append. change (N.min (size []) (sw_remaining w)) with (N.min 0 (sw_remaining w)). rewrite N.min_0_l, ntake_0. unfold sw_store. change (size (@nil N) =? 0) with true. cbn [bind].
    rewrite (past_format 0 (size (lit "Illegal argument '"))); [reflexivity|]. destruct P as (A & B & C & D). unfold past. cbn [sw_size sw_offset sw_buffer]. rewrite A, B, N.add_0_r, u16_small by lia. tauto. }
  assert (NZ : forall subject name reason i a b, range_text subject name reason i a b t -> size t =? 0 = false).
  { intros subject name reason i a b (di & da & db & _ & _ & _ & ->). apply N.eqb_neq. sizes. lia. }
  assert (NZ2 : forall m c, (exists d, decimal_z c d /\ t = m ++ lit "[" ++ d ++ lit "]: " ++ strerror c) -> size t =? 0 = false).
  { intros m c (d & _ & ->). apply N.eqb_neq. sizes. lia. }
  destruct e; cbn [exc_text exc_build viewed exc_ok] in *; change (2 ^ 16) with 65536 in *; try (subst t; reflexivity); try (rewrite (NZ _ _ _ _ _ _ T); apply R);
    try (rewrite J; eexists; split; [reflexivity|]; split; reflexivity).
  - subst t. cbn [es_make]. destruct (size message =? 0) eqn:Z; [|reflexivity]. eexists. split; [reflexivity|]. split; reflexivity.
  - rewrite I0. subst t. rewrite size_app. change (size (lit "Illegal argument '")) with 18. destruct (N.eqb_spec (18 + size (name ++ lit "'")) 0); [lia|reflexivity].
  - rewrite E0. rewrite (NZ2 (lit "IOException") code T). reflexivity.
  - rewrite E0. rewrite (NZ2 message code T). reflexivity.
Qed.
Print Assumptions C139_no_memory.

(** A name of 65520 characters overruns the memory of the message, one of 65535 spoils
    it, and a message without a name of its own is always whole. *)
Lemma message_cases strerror n m : size n = 65520 -> size m = 65535 -> (forall c, size (strerror c) < 2 ^ 15) ->
  exc_build true strerror (IllegalArgumentNamed n) = UB /\
  (exists s, exc_build true strerror (IllegalArgumentNamed m) = Ret s /\ es_view s = Ret (lit "Illegal argument '" ++ firstn 2 m ++ [0])) /\
  (exists s, exc_build true strerror (NoSuchElementNamed m) = Ret s /\ es_view s = Ret (cut16 (lit "No such element " ++ m))).
Proof.
  intros Hn Hm HS. split; [|split].
  - pose proof (C139_message strerror (IllegalArgumentNamed n) _ ltac:(cbn [exc_ok]; rewrite Hn; reflexivity) HS eq_refl) as M.
    unfold fate_of in M. cbn [slack] in M. sizes. rewrite Hn in M. exact M.
  - pose proof (C139_message strerror (IllegalArgumentNamed m) _ ltac:(cbn [exc_ok]; rewrite Hm; reflexivity) HS eq_refl) as M.
    unfold fate_of in M. cbn [slack] in M. sizes. rewrite Hm in M. destruct M as (s & E & V & _). eauto.
  - pose proof (C139_message strerror (NoSuchElementNamed m) _ ltac:(cbn [exc_ok]; rewrite Hm; reflexivity) HS eq_refl) as M.
    unfold fate_of in M. cbn [slack] in M. rewrite size_app in M. sizes. rewrite Hm in M. destruct M as (s & E & V & _). eauto.
Qed.
Example C139_ok : exists n m : list N, size n = 65520 /\ size m = 65535.
Proof. exists (repeat 97 (N.to_nat 65520)), (repeat 97 (N.to_nat 65535)). unfold size. rewrite !repeat_length. split; apply N2Nat.id. Qed.
