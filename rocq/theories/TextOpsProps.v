(** C118-C120: comparison operators between text types, measured buffers. *)
From Verif Require Import Base BaseLemmas MemViewModel MemViewSpec MemViewProofs ByteIOModel ByteIOSpec ByteIOProofs.
From Verif Require Import Base16Proofs StringSpec StringModel StringViewModel StringViewProofs StringProofs.
From Verif Require Import FmtModel FmtSpec FmtProofs BuilderModel BuilderSpec BuilderProofs BuilderProps.
From Verif Require Import TextOpsModel TextOpsSpec TextOpsProofs.
Ltac Zify.zify_post_hook ::= Z.div_mod_to_equations.

(** ** C118: == and != between texts of any types *)
(** The operators exist exactly for the comparable pairs, in both orders. *)
Theorem C118_both_orders : forall x y,
  (op_eq x y <> None <-> comparable x y) /\ (op_ne x y <> None <-> comparable x y) /\ (comparable x y <-> comparable y x).
Proof. intros [s|s|s|p] [t|t|t|q]; cbn; intuition congruence. Qed.
Print Assumptions C118_both_orders.
(** == holds exactly between equal texts, != is its negation, the order does not matter.
    Missing: C strings of 65536 characters or more. *)
Theorem C118_equal_partial : forall x y a b, shows x a -> shows y b -> comparable x y -> size a < 2 ^ 16 -> size b < 2 ^ 16 ->
  exists e, op_eq x y = Some (Ret e) /\ op_eq y x = Some (Ret e) /\
            op_ne x y = Some (Ret (negb e)) /\ op_ne y x = Some (Ret (negb e)) /\ (e = true <-> a = b).
Proof.
  intros x y a b X Y C A B. exists (sv_equals a b).
  pose proof (view_of_shows x a X (fun _ => A)) as VX. pose proof (view_of_shows y b Y (fun _ => B)) as VY.
  destruct (op_eq_views x y a b C VX VY) as (E1 & E2).
  destruct (op_eq_views y x b a) as (E3 & E4); trivial; [now apply C118_both_orders|]. rewrite (sv_equals_sym b a) in E3, E4.
  repeat (split; [assumption|]). apply sv_equals_spec.
Qed.
Print Assumptions C118_equal_partial.
(** Equality goes through from one type to another. *)
Theorem C118_transitive_partial : forall x y z a b c, shows x a -> shows y b -> shows z c ->
  comparable x y -> comparable y z -> comparable x z -> size a < 2 ^ 16 -> size b < 2 ^ 16 -> size c < 2 ^ 16 ->
  op_eq x y = Some (Ret true) -> op_eq y z = Some (Ret true) -> op_eq x z = Some (Ret true).
Proof.
  intros x y z a b c X Y Z XY YZ XZ A B C E1 E2.
  destruct (C118_equal_partial x y a b X Y XY A B) as (e & F1 & _ & _ & _ & G1).
  destruct (C118_equal_partial y z b c Y Z YZ B C) as (e' & F2 & _ & _ & _ & G2).
  destruct (C118_equal_partial x z a c X Z XZ A C) as (e'' & F3 & _ & _ & _ & G3).
  rewrite F3. do 2 f_equal. apply G3. transitivity b; [apply G1|apply G2]; congruence.
Qed.
Print Assumptions C118_transitive_partial.
(** A C string of 65536 characters or more equals its first (length mod 65536)
    characters, and no text of its own. *)
Theorem C118_equal_refuted : forall t after, ~ In 0 t -> 2 ^ 16 <= size t ->
  let x := OCstr (Some (t ++ 0 :: after)) in
  shows x t /\ op_eq x (OView (ntake (size t mod 2 ^ 16) t)) = Some (Ret true) /\ ntake (size t mod 2 ^ 16) t <> t.
Proof.
  intros t after Z L x. split; [split; [exact Z|now exists after]|].
  assert (K : size (ntake (size t mod 2 ^ 16) t) < 2 ^ 16) by (rewrite size_ntake; lia). split.
  - destruct (op_eq_views x (OView (ntake (size t mod 2 ^ 16) t)) (ntake (u16 (size t)) t) (ntake (size t mod 2 ^ 16) t)) as (-> & _);
      [exact I|now apply cstr_spec|reflexivity|]. unfold u16. now rewrite sv_equals_refl.
  - intros E. rewrite E in K. lia.
Qed.
Print Assumptions C118_equal_refuted.
(** A pointer to memory without a zero byte is read beyond its end. *)
Theorem C118_unterminated : forall m y, ~ In 0 m -> comparable (OCstr (Some m)) y -> forall t, shows y t ->
  op_eq (OCstr (Some m)) y = Some UB.
Proof.
  intros m y Z C t Y. assert (U : strlen m = UB).
  { clear C. induction m as [|b m IH]; [reflexivity|]. cbn [strlen]. destruct (N.eqb_spec b 0) as [->|_]; [exfalso; apply Z; now left|].
    rewrite IH; [reflexivity|]. intros X. apply Z. now right. }
  destruct y; cbn [comparable] in C; try contradiction; cbn [op_eq]; unfold equals_of; cbn [view_of view_of_cstr]; rewrite U; reflexivity.
Qed.
Print Assumptions C118_unterminated.
Example C118_ok :
  shows (OStr (mkStr [97; 98; 7] 2)) [97; 98] /\ shows (OCstr (Some [97; 98; 0; 9])) [97; 98] /\ shows (OCstr None) [] /\
  comparable (OStr (mkStr [97; 98; 7] 2)) (OCstr (Some [97; 98; 0; 9])) /\
  op_eq (OStr (mkStr [97; 98; 7] 2)) (OCstr (Some [97; 98; 0; 9])) = Some (Ret true) /\
  op_ne (OCstr None) (OView [97]) = Some (Ret true) /\
  (exists t, ~ In 0 t /\ 2 ^ 16 <= size t).
Proof.
  split; [split; [reflexivity|]; split; [reflexivity|]; now exists [7]|]. split; [split; [intros [H|[H|[]]]; discriminate H|now exists [9]]|].
  split; [reflexivity|]. split; [exact I|]. split; [reflexivity|]. split; [reflexivity|].
  exists (repeat 1 (N.to_nat 65536)). split; [intros H; apply repeat_spec in H; discriminate H|]. unfold size. rewrite repeat_length, Nnat.N2Nat.id. reflexivity.
Qed.

(** ** C119: the ordering operators *)
(** >= is the negation of <, > that of <=, and one of them ends the program exactly when
    all do. *)
Theorem C119_complement : forall a b,
  (forall v, op_ord Lt a b = Ret v <-> op_ord Ge a b = Ret (negb v)) /\
  (forall v, op_ord Le a b = Ret v <-> op_ord Gt a b = Ret (negb v)) /\
  (forall v, op_ord Lt a b = Ret true -> op_ord Le a b = Ret v -> v = true) /\
  (forall r r', op_ord r a b = Terminates <-> op_ord r' a b = Terminates).
Proof.
  intros a b. unfold op_ord. destruct (sv_compareTo a b) as [z| | | |]; cbn [bind]; repeat split; intros; try congruence.
  - injection H as <-. f_equal. destruct (Z.ltb_spec z 0), (Z.leb_spec 0 z); (reflexivity || lia).
  - injection H as H. f_equal. destruct (Z.ltb_spec z 0), (Z.leb_spec 0 z), v; (reflexivity || discriminate || lia).
  - injection H as <-. f_equal. destruct (Z.ltb_spec 0 z), (Z.leb_spec z 0); (reflexivity || lia).
  - injection H as H. f_equal. destruct (Z.ltb_spec 0 z), (Z.leb_spec z 0), v; (reflexivity || discriminate || lia).
  - injection H as H. injection H0 as <-. apply Z.ltb_lt in H. apply Z.leb_le. lia.
Qed.
Print Assumptions C119_complement.
(** On texts of 7-bit characters other than NUL, the right-hand one not empty, the
    operators are those of the order that puts shorter texts first; [==] agrees. *)
Theorem C119_order_partial : forall a b, sv_ok a -> sv_ok b -> plain a -> plain b -> b <> [] ->
  exists lt le gt ge eq, op_ord Lt a b = Ret lt /\ op_ord Le a b = Ret le /\ op_ord Gt a b = Ret gt /\ op_ord Ge a b = Ret ge /\
    op_eq (OView a) (OView b) = Some (Ret eq) /\
    (lt = true <-> shortlex_lt a b) /\ (gt = true <-> shortlex_lt b a) /\ (eq = true <-> a = b) /\
    (le = true <-> shortlex_lt a b \/ a = b) /\ (ge = true <-> shortlex_lt b a \/ a = b) /\
    (lt = true \/ eq = true \/ gt = true).
Proof.
  intros a b A B PA PB NB. destruct (compareTo_plain a b A B PA PB NB) as (z & E & L & Q & G). unfold op_ord. rewrite E. cbn [bind].
  do 5 eexists. do 4 (split; [reflexivity|]). split; [apply (op_eq_views (OView a) (OView b) a b I eq_refl eq_refl)|].
  rewrite !Z.ltb_lt, !Z.leb_le, sv_equals_spec, <- L, <- G, <- Q. lia.
Qed.
Print Assumptions C119_order_partial.
(** A String compares with < as its text does. *)
Theorem C119_string : forall a b ta tb, shows (OStr a) ta -> shows (OStr b) tb -> str_lt a b = noexcept (op_ord Lt ta tb).
Proof.
  intros a b ta tb A B. pose proof (view_of_shows _ _ A) as VA. pose proof (view_of_shows _ _ B) as VB. cbn [is_cstr view_of] in VA, VB.
  unfold str_lt, op_ord. specialize (VA (False_ind _)). specialize (VB (False_ind _)). injection VA as ->. injection VB as ->. reflexivity.
Qed.
Print Assumptions C119_string.
(** Strings of such texts are strictly and totally ordered by <. *)
Theorem C119_strict_order_partial : forall x y z tx ty tz,
  shows (OStr x) tx -> shows (OStr y) ty -> shows (OStr z) tz ->
  plain tx -> plain ty -> plain tz -> tx <> [] -> ty <> [] -> tz <> [] ->
  str_lt x x = Ret false /\
  (str_lt x y = Ret true -> str_lt y z = Ret true -> str_lt x z = Ret true) /\
  (str_lt x y = Ret true \/ op_eq (OStr x) (OStr y) = Some (Ret true) \/ str_lt y x = Ret true).
Proof.
  intros x y z tx ty tz X Y Z PX PY PZ NX NY NZ.
  assert (LT : forall u v tu tv, shows (OStr u) tu -> shows (OStr v) tv -> plain tu -> plain tv -> tv <> [] ->
    exists e, str_lt u v = Ret e /\ (e = true <-> shortlex_lt tu tv)).
  { intros u v tu tv U V PU PV NV. rewrite (C119_string u v tu tv U V).
    destruct (C119_order_partial tu tv) as (e & _ & _ & _ & _ & E & _ & _ & _ & _ & H & _); trivial; try (apply U); try (apply V).
    exists e. rewrite E. split; [reflexivity|exact H]. }
  destruct (LT x x tx tx X X PX PX NX) as (e1 & E1 & H1). destruct (LT x y tx ty X Y PX PY NY) as (e2 & E2 & H2).
  destruct (LT y z ty tz Y Z PY PZ NZ) as (e3 & E3 & H3). destruct (LT x z tx tz X Z PX PZ NZ) as (e4 & E4 & H4).
  destruct (LT y x ty tx Y X PY PX NX) as (e5 & E5 & H5). split; [|split].
  - rewrite E1. f_equal. destruct e1; [|reflexivity]. exfalso. eapply shortlex_irrefl, H1. reflexivity.
  - intros F G. rewrite E4. f_equal. apply H4. eapply shortlex_trans; [apply H2|apply H3]; congruence.
  - rewrite E2, E5. destruct (shortlex_total tx ty) as [G|[G|G]]; [left|right; left|right; right].
    + f_equal. now apply H2.
    + destruct (C118_equal_partial (OStr x) (OStr y) tx ty X Y I) as (e & E & _ & _ & _ & H); [apply X|apply Y|]. rewrite E. do 2 f_equal. now apply H.
    + f_equal. now apply H5.
Qed.
Print Assumptions C119_strict_order_partial.
(** For other texts they are not: any comparison of a non-empty text with the empty one
    on the right ends the program; two texts can each be less than the other, or both not
    less and yet different. *)
Theorem C119_order_refuted :
  (forall r c s, sv_ok (c :: s) -> op_ord r (c :: s) [] = Terminates) /\
  (op_ord Lt [255; 1] [97] = Ret true /\ op_ord Lt [97] [255; 1] = Ret true) /\
  (op_ord Le [0; 1] [0; 2] = Ret true /\ op_ord Ge [0; 1] [0; 2] = Ret true /\ op_eq (OView [0; 1]) (OView [0; 2]) = Some (Ret false)).
Proof.
  split; [|repeat split; vm_compute; reflexivity]. intros r c s H. unfold op_ord, sv_compareTo, sv_ok in *. change (size (@nil N)) with 0.
  rewrite size_cons in *. destruct (N.ltb_spec 0 (size s + 1)); [|lia].
  unfold sv_charAt. rewrite size_cons. replace (sub16 0 1) with 65535 by reflexivity.
  destruct (N.leb_spec (size s + 1) 65535); [reflexivity|lia].
Qed.
Print Assumptions C119_order_refuted.
Example C119_ok : plain [97; 98] /\ plain [99] /\ shows (OStr (mkStr [99; 0; 0] 1)) [99] /\
  op_ord Lt [99] [97; 98] = Ret true /\ op_ord Ge [97; 98] [99] = Ret true /\ str_lt (mkStr [99; 0; 0] 1) (mkStr [97; 98] 2) = Ret true.
Proof.
  assert (plain [97; 98]) by (repeat constructor; lia). assert (plain [99]) by (repeat constructor; lia). repeat (split; [assumption|]).
  split; [split; [reflexivity|]; split; [reflexivity|]; now exists [0; 0]|]. repeat split; vm_compute; reflexivity.
Qed.

(** ** C120: a buffer of the measured size *)
(** Exactly when the numbers have room does a buffer of the sum of the measured sizes
    take all that is appended. *)
Theorem C120_exact : forall host_be buf l ts, Forall item_ok l -> Forall2 item_text l ts ->
  size buf = measured l -> size buf < 2 ^ 64 -> size (concat ts) < 2 ^ 16 ->
  exists w, sb_append_items host_be (sb_make buf) l = Ret w /\ (sb_view w = concat ts <-> numbers_have_room l).
Proof.
  intros host_be buf l ts K T E B L. destruct (pieces_ok l ts K T) as (P & R).
  destruct (C52_history host_be buf _ ts B P R) as (w & Q & H). cbv zeta in H. exists w. rewrite (items_pieces host_be l ts K T). split; [exact Q|].
  pose proof (accumulate_size (size buf) (combine (map item_piece (combine l ts)) ts) []) as Z.
  rewrite map_snd_combine in Z by (clear - R; induction R; cbn; congruence). change (size (@nil N)) with 0 in Z.
  destruct (H ltac:(lia)) as (-> & _). rewrite <- room_0, <- (accumulate_room (size buf) l ts K T [] 0) by (change (size (@nil N)) with 0; lia). reflexivity.
Qed.
Print Assumptions C120_exact.
(** One byte more than measured is always enough. *)
Theorem C120_one_more : forall host_be buf l ts, Forall item_ok l -> Forall2 item_text l ts ->
  measured l + 1 <= size buf -> size buf < 2 ^ 64 -> size (concat ts) < 2 ^ 16 ->
  exists w, sb_append_items host_be (sb_make buf) l = Ret w /\ sb_view w = concat ts.
Proof.
  intros host_be buf l ts K T E B L. destruct (pieces_ok l ts K T) as (P & R).
  destruct (C52_history host_be buf _ ts B P R) as (w & Q & H). cbv zeta in H. exists w. rewrite (items_pieces host_be l ts K T). split; [exact Q|].
  pose proof (accumulate_size (size buf) (combine (map item_piece (combine l ts)) ts) []) as Z.
  rewrite map_snd_combine in Z by (clear - R; induction R; cbn; congruence). change (size (@nil N)) with 0 in Z.
  destruct (H ltac:(lia)) as (-> & _). apply (accumulate_room (size buf) l ts K T [] (size buf - measured l)); [change (size (@nil N)) with 0; lia|].
  intros b v a X. left. lia.
Qed.
Print Assumptions C120_one_more.
(** The measured size is never less than the text, and exceeds it only by strings in
    quotes, whose terminating zero is counted. *)
Theorem C120_measured : forall l ts, Forall item_ok l -> Forall2 item_text l ts ->
  size (concat ts) <= measured l /\ ((forall s, ~ In (IQuoted s) l) <-> measured l = size (concat ts)).
Proof.
  intros l ts K T. induction T as [|i t l ts H T IH]; cbn [concat measured]; [split; [reflexivity|]; split; [reflexivity|intros _ s []]|].
  inversion K as [|? ? Ki K']; subst. destruct (IH K') as (L & Q). destruct (measure_ge i t Ki H) as (M & _). rewrite size_app.
  split; [destruct i; lia|]. split.
  - intros F. rewrite (proj1 Q) by (intros s X; apply (F s); now right). destruct i; try lia. exfalso. eapply F. left. reflexivity.
  - intros F s [->|X]; [lia|]. revert s X. apply Q. destruct i; lia.
Qed.
Print Assumptions C120_measured.
(** A text that ends in a number loses it. *)
Theorem C120_number_last_refuted : forall host_be buf s v t, size s < 2 ^ 15 -> v < 2 ^ 64 -> decimal v t ->
  size buf = measured [IText s; INum v] ->
  exists w, sb_append_items host_be (sb_make buf) [IText s; INum v] = Ret w /\ sb_view w <> s ++ t.
Proof.
  intros host_be buf s v t S V D E. destruct (C62_measure v t V D) as (M & T). cbn [measured sb_measure_item] in E. rewrite M in E.
  destruct (C120_exact host_be buf [IText s; INum v] [s; t]) as (w & Q & H).
  - constructor; [cbn; lia|]. constructor; [exact V|constructor].
  - constructor; [reflexivity|]. constructor; [exact D|constructor].
  - cbn [measured sb_measure_item]. lia.
  - lia.
  - cbn [concat]. rewrite !size_app. change (size (@nil N)) with 0. lia.
  - exists w. split; [exact Q|]. intros X. cbn [concat] in H. rewrite app_nil_r in H.
    destruct (proj1 H X [IText s] v [] eq_refl) as [(q & [Y|[]])|Y]; [discriminate Y|inversion Y].
Qed.
Print Assumptions C120_number_last_refuted.
Example C120_ok : exists ts,
  let l := [IText [97]; INum 42; IChar 47; IQuoted [98; 99]; INum 7] in
  Forall item_ok l /\ Forall2 item_text l ts /\ concat ts = [97; 52; 50; 47; 98; 99; 55] /\ measured l = 8 /\ numbers_have_room l.
Proof.
  exists [[97]; [52; 50]; [47]; [98; 99]; [55]]. cbv zeta. split; [repeat constructor; vm_compute; reflexivity|]. split.
  { repeat apply Forall2_cons; try apply Forall2_nil; try reflexivity; try apply (dec_spec 42); try apply (dec_spec 7).
    split; [intros [H|[H|[]]]; discriminate H|now exists []]. }
  split; [reflexivity|]. split; [reflexivity|]. intros b v a E.
  destruct b as [|x1 [|x2 [|x3 [|x4 [|x5 [|x6 b]]]]]]; cbn in E; try discriminate E; injection E; intros; subst; try discriminate.
  - right. constructor. discriminate.
  - left. exists [98; 99]. cbn. auto.
Qed.
