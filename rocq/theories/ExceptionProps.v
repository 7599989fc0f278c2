(** C54, C79, C80: exception messages, their lifetime, and range assertions. *)
From Coq Require Import Ascii String Permutation.
From Verif Require Import Base BaseLemmas FmtModel FmtSpec FmtProofs AtomSpec ExceptionModel ExceptionSpec ExceptionProofs.

(** ** C54 *)

(** The message of every exception is its full text, and what() is that text as a C
    string, as long as the text has at most 65527 characters and memory is found. *)
Theorem C54_text_partial : forall strerror e t, exc_text strerror e t -> size t + 8 < 2 ^ 16 ->
  exists s, exc_build true strerror e = Ret s /\ es_view s = Ret t /\ es_size s = size t /\ es_cstr s = Ret (c_string t).
Proof.
  intros strerror e t T L. assert (G : exists s, exc_build true strerror e = Ret s /\ holds_text s t).
  2:{ destruct G as (s & E & H). exists s. split; [exact E|]. split; [now apply holds_view|]. split; [apply H|now apply holds_cstr]. }
  assert (R : forall subject name reason i a b, range_text subject name reason i a b t ->
    exists s, formatIndexOutOfRangeError true subject name reason i a b = Ret s /\ holds_text s t).
  { intros subject name reason i a b (di & da & db & Hi & Ha & Hb & ->). apply decimal_dec in Hi, Ha, Hb. subst di da db. now apply range_built. }
  change (2 ^ 16) with 65536 in *.
  destruct e; cbn [exc_text exc_build] in *; 
    try match goal with |- exists s, es_make _ _ = _ /\ _ => subst t; apply holds_make end;
    try match goal with |- exists s, formatIndexOutOfRangeError _ (lit _) _ _ _ _ _ = _ /\ _ => now apply R end.
  - subst t. apply illegal_text. change (2 ^ 16) with 65536. lia.
  - destruct T as (di & da & db & Hi & Ha & Hb & E). apply R. exists di, da, db. split; [exact Hi|]. split; [exact Ha|]. split; [exact Hb|].
    rewrite E. f_equal. rewrite E, size_app in L. unfold from_cstr. destruct prefix as [p|]; [|reflexivity].
    unfold u16. rewrite N.mod_small by (change (2 ^ 16) with 65536; lia). symmetry. apply ntake_all. lia.
  - subst t. destruct (join_text (lit "No such element") name (lit " ")) as (s & E & H); [sizes; change (2 ^ 16) with 65536; lia|].
    exists s. split; [exact E|exact H].
  - subst t. assert (E : from_cstr tag = match tag with Some s => s | None => [] end).
    { unfold from_cstr. destruct tag as [p|]; [|reflexivity]. sizes. unfold u16. rewrite N.mod_small by (change (2 ^ 16) with 65536; lia).
      apply ntake_all. lia. }
    rewrite <- E in *. destruct (join_text (lit "Invalid State") (from_cstr tag) (lit " ")) as (s & E' & H); [sizes; change (2 ^ 16) with 65536; lia|].
    exists s. split; [exact E'|exact H].
  - destruct T as (d & D & ->). apply decimal_decz in D. subst d.
    destruct (errno_text strerror code (lit "IOException")) as (s & E & H); [|exists s; split; [exact E|exact H]].
    change (lit "IOException" ++ lit "[" ++ ?x) with (lit "IOException[" ++ x). change (2 ^ 16) with 65536. lia.
  - destruct T as (d & D & ->). apply decimal_decz in D. subst d. apply errno_text. change (2 ^ 16) with 65536. lia.
Qed.
Print Assumptions C54_text_partial.
Example C54_case : exists t, exc_text (fun _ => lit "No such file") (IOErrorMsg (-2) (lit "open")) t /\ t = lit "open[-2]: No such file" /\ size t + 8 < 2 ^ 16 /\
  exists u, exc_text (fun _ => []) (OverflowNamed (lit "size") 300 0 256) u /\ u = lit "Value 'size'=300 overflows range [0, 256)".
Proof.
  eexists. split; [|split; [reflexivity|split; [vm_compute; reflexivity|]]].
  - cbn [exc_text]. exists (decz (-2)). split; [apply decz_spec|vm_compute; reflexivity].
  - eexists. split; [|reflexivity]. cbn [exc_text]. exists (dec 300), (dec 0), (dec 256).
    split; [apply dec_spec|]. split; [apply dec_spec|]. split; [apply dec_spec|]. vm_compute. reflexivity.
Qed.

(** A text of 65528 characters fits 16 bits, but the memory reserved for it wraps to
    one byte and the formatting runs past it. *)
Theorem C54_overrun_refuted : forall strerror p i a b, i < 2 ^ 64 -> a < 2 ^ 64 -> b < 2 ^ 64 ->
  size p + 23 + size (dec i) + size (dec a) + size (dec b) = 65528 ->
  (exists t, exc_text strerror (OutOfRangeIn i a b (Some p)) t /\ size t = 65528) /\
  exc_build true strerror (OutOfRangeIn i a b (Some p)) = UB.
Proof.
  intros strerror p i a b Hi Ha Hb L. split.
  - exists (p ++ lit ": " ++ dec i ++ lit " " ++ lit "is out of range" ++ lit " [" ++ dec a ++ lit ", " ++ dec b ++ lit ")"). split.
    + exists (dec i), (dec a), (dec b). split; [apply dec_spec|]. split; [apply dec_spec|]. split; [apply dec_spec|]. reflexivity.
    + sizes. lia.
  - cbn [exc_build]. unfold formatIndexOutOfRangeError, measure_view, measure_num.
    pose proof (dec_size i Hi). pose proof (dec_size a Ha). pose proof (dec_size b Hb). unfold from_cstr.
    assert (E : forall x, x < 65536 -> u16 x = x) by (intros; unfold u16; now apply N.mod_small).
    rewrite (E (size p)) by lia. rewrite ntake_all by lia. rewrite (E (size (dec i))), (E (size (dec a))), (E (size (dec b))) by lia.
    change (measure_lit (lit " '")) with 3. change (measure_lit (lit "'=")) with 3. change (measure_lit (lit " ")) with 2.
    change (measure_lit (lit " [")) with 3. change (measure_lit (lit ", ")) with 3. change (measure_lit (lit ")")) with 2.
    change (size (lit "is out of range")) with 15. change (size (@nil N)) with 0.
    replace (size p + 3 + 0 + 3 + size (dec i) + 2 + 15 + 3 + size (dec a) + 3 + size (dec b) + 2) with 65536 by lia.
    change (sw_new true (u16 65536)) with (mkSW 0 0 (Some [0])). unfold sw_append at 1. unfold sw_remaining. cbn [sw_size sw_offset].
    change (sub16 0 0) with 0. rewrite N.min_0_r, ntake_0. cbn [bind sw_store size length N.of_nat N.eqb sw_buffer negb]. unfold u16 at 1. cbn [N.add].
    change (0 mod 2 ^ 16) with 0. change (sw_format (mkSW 0 0 (Some [0])) (lit ": ")) with (Ret (mkSW 0 2 (Some [0]))). cbn [bind].
    unfold sw_format at 1. unfold sw_remaining. cbn [sw_size sw_offset]. change (sub16 0 2) with 65534. cbn [N.eqb].
    rewrite ntake_all by lia. unfold sw_store. cbn [sw_buffer sw_offset]. rewrite size_app. change (size [0]) with 1.
    destruct (N.eqb_spec (size (dec i) + 1) 0); [lia|]. destruct (N.ltb_spec 1 (2 + (size (dec i) + 1))); [reflexivity|lia].
Qed.
Print Assumptions C54_overrun_refuted.
Example C54_overrun_case : size (repeat 97 (N.to_nat 65502)) + 23 + size (dec 7) + size (dec 0) + size (dec 7) = 65528.
Proof. unfold size at 1. rewrite repeat_length. reflexivity. Qed.

(** Without memory the message cannot be built: undefined, where the constructors promise
    not to fail. *)
Theorem C54_no_memory_refuted : forall strerror m i a b, m <> [] ->
  exc_build false strerror (Plain m) = UB /\ exc_build false strerror (OutOfRangeOf i a b) = UB.
Proof.
  intros strerror m i a b H. split.
  - destruct m as [|c m]; [congruence|]. cbn [exc_build es_make]. rewrite size_cons. destruct (N.eqb_spec (size m + 1) 0); [lia|reflexivity].
  - cbn [exc_build]. unfold formatIndexOutOfRangeError, sw_new.
    change (sw_append (mkSW 0 0 None) (lit "Index out of range")) with (Ret (mkSW 0 0 None)). cbn [bind]. change (size (@nil N) =? 0) with true. cbn [negb].
    change (sw_format (mkSW 0 0 None) (lit ": ")) with (Ret (mkSW 0 2 None)). cbn [bind].
    unfold sw_format at 1. unfold sw_remaining. cbn [sw_size sw_offset]. change (sub16 0 2) with 65534. cbn [N.eqb]. unfold sw_store. cbn [sw_buffer].
    rewrite size_app. change (size [0]) with 1. match goal with |- context [?x + 1 =? 0] => destruct (N.eqb_spec (x + 1) 0); [lia|reflexivity] end.
Qed.
Print Assumptions C54_no_memory_refuted.

(** ** C80: range assertions *)

(** The value is returned iff it is in the range; otherwise an exception is raised whose
    text names the value and the bounds. *)
Theorem C80_value_partial : forall strerror index from to message,
  (from <= index < to -> assertValueInRange index from to message = inl index) /\
  (~ from <= index < to -> exists e, assertValueInRange index from to message = inr e /\
     forall t, range_text (match message with None => lit "Index out of range" | Some (Some p) => p | Some None => [] end) []
        (lit "is out of range") index from to t -> size t + 8 < 2 ^ 16 ->
     exists s, exc_build true strerror e = Ret s /\ es_view s = Ret t).
Proof.
  intros strerror index from to message. unfold assertValueInRange.
  destruct (N.leb_spec to index), (N.ltb_spec index from); cbn [orb]; split; intros H1; try lia; try reflexivity;
    (eexists; split; [reflexivity|]; intros t T L; destruct message as [m|];
      [destruct (C54_text_partial strerror (OutOfRangeIn index from to m) t) as (s & E & V & _)
      |destruct (C54_text_partial strerror (OutOfRangeOf index from to) t) as (s & E & V & _)];
      [destruct m; exact T | exact L | eauto | exact T | exact L | eauto]).
Qed.
Print Assumptions C80_value_partial.
Theorem C80_index_partial : forall strerror index size_ message,
  (index < size_ -> assertIndexInRange index size_ message = inl index) /\
  (size_ <= index -> exists e, assertIndexInRange index size_ message = inr e /\
     forall t, range_text (match message with Some p => p | None => [] end) [] (lit "is out of range") index 0 size_ t -> size t + 8 < 2 ^ 16 ->
     exists s, exc_build true strerror e = Ret s /\ es_view s = Ret t).
Proof.
  intros strerror index sz message. unfold assertIndexInRange. destruct (N.leb_spec sz index); split; intros H1; try lia; [|reflexivity].
  eexists. split; [reflexivity|]. intros t T L. destruct (C54_text_partial strerror (OutOfRangeIn index 0 sz message) t T L) as (s & E & V & _). eauto.
Qed.
Print Assumptions C80_index_partial.
Example C80_case : ~ 3 <= 12 < 10 /\ range_text (lit "at") [] (lit "is out of range") 12 3 10 (lit "at: 12 is out of range [3, 10)").
Proof.
  split; [lia|]. exists (dec 12), (dec 3), (dec 10). split; [apply dec_spec|]. split; [apply dec_spec|]. split; [apply dec_spec|]. reflexivity.
Qed.

(** ** C79: lifetime of messages *)

(** What each exception of the program should say: Some (Some t), or nothing after it
    was moved from (Some None) or destroyed (None). *)
Definition said_step (l : list (option (option (list N)))) (o : mop) : list (option (option (list N))) :=
  match o with
  | MNew t => l ++ [Some (Some t)]
  | MMove i => match nth_error l i with Some (Some x) => mset l i (Some None) ++ [Some x] | _ => l end
  | MDestroy i => match nth_error l i with Some (Some _) => mset l i None | _ => l end
  end.
Definition said (ops : list mop) : list (option (option (list N))) := fold_left said_step ops [].
Definition mrun (ops : list mop) : mworld := fold_left mstep ops (mkMW [] [] []).
(** Buffers held by exceptions. *)
Definition held (w : mworld) : list nat :=
  flat_map (fun o => match o with Some m => match m_buffer m with Some b => [b] | None => [] end | None => [] end) (mw_objs w).

Definition says (texts : list (list N)) (o : option message_obj) (x : option (option (list N))) : Prop :=
  match o, x with
  | None, None => True
  | Some m, Some None => m_buffer m = None
  | Some m, Some (Some t) => exists b, m_buffer m = Some b /\ nth_error texts b = Some t /\ m_size m = size t
  | _, _ => False
  end.
Lemma mset_split {A} (l : list A) i x : nth_error l i = Some x ->
  exists a b, l = a ++ x :: b /\ length a = i /\ forall y, mset l i y = a ++ y :: b.
Proof.
  intros H. apply nth_error_split in H as (a & b & -> & <-). exists a, b. split; [reflexivity|]. split; [reflexivity|].
  intros y. induction a as [|z a IH]; cbn; [reflexivity|now rewrite IH].
Qed.
Lemma says_app texts t o x : says texts o x -> says (texts ++ [t]) o x.
Proof.
  unfold says. destruct o as [m|], x as [[u|]|]; auto. intros (b & A & B & C). exists b. split; [exact A|]. split; [|exact C].
  rewrite nth_error_app1; [exact B|]. apply nth_error_Some. congruence.
Qed.
Lemma Forall2_split {A B} (R : A -> B -> Prop) a x b l' : Forall2 R (a ++ x :: b) l' ->
  exists a' y b', l' = a' ++ y :: b' /\ length a' = length a /\ Forall2 R a a' /\ R x y /\ Forall2 R b b'.
Proof.
  intros H. apply Forall2_app_inv_l in H as (a' & r & H1 & H2 & ->). inversion H2 as [|? y ? b' Hy Hb]; subst.
  exists a', y, b'. split; [reflexivity|]. split; [|auto]. clear - H1. induction H1; cbn; congruence.
Qed.

Lemma app_mid {A} (a : list A) x b a2 y b2 : a ++ x :: b = a2 ++ y :: b2 -> length a = length a2 -> a = a2 /\ b = b2.
Proof.
  revert a2; induction a as [|z a IH]; intros [|z2 a2] E X; try discriminate; cbn in E.
  - split; congruence.
  - injection X as X. assert (E' : a ++ x :: b = a2 ++ y :: b2) by congruence. destruct (IH a2 E' X). split; congruence.
Qed.
Definition minv (w : mworld) (l : list (option (option (list N)))) : Prop :=
  Forall2 (says (mw_texts w)) (mw_objs w) l /\ Permutation (held w ++ mw_freed w) (seq 0 (length (mw_texts w))).
Lemma nth_Forall2 {A B} (R : A -> B -> Prop) l m : Forall2 R l m -> forall i,
  match nth_error l i, nth_error m i with Some x, Some y => R x y | None, None => True | _, _ => False end.
Proof. induction 1 as [|x y l m H F IH]; intros [|i]; cbn; auto. apply IH. Qed.
Lemma minv_step w l o : minv w l -> minv (mstep w o) (said_step l o).
Proof.
  intros (F & P). destruct o as [t|i|i]; cbn [mstep said_step].
  - split; cbn [mw_objs mw_texts mw_freed].
    + apply Forall2_app; [|constructor; [|constructor]].
      * clear P. induction F; constructor; [now apply says_app|assumption].
      * cbn. exists (length (mw_texts w)). split; [reflexivity|]. split; [|reflexivity]. rewrite nth_error_app2, Nat.sub_diag by lia. reflexivity.
    + unfold held in *. cbn [mw_objs]. rewrite flat_map_app, app_length. cbn [flat_map app m_buffer length]. rewrite Nat.add_1_r, seq_S.
      rewrite <- P. cbn [Nat.add]. rewrite <- !app_assoc. apply Permutation_app_head. apply Permutation_app_comm.
  - pose proof (nth_Forall2 _ _ _ F i) as Q. unfold mget. destruct (nth_error (mw_objs w) i) as [[m|]|] eqn:E1.
    2:{ destruct (nth_error l i) as [[x|]|]; cbn in Q; try contradiction. split; assumption. }
    2:{ destruct (nth_error l i) as [x|]; [contradiction|]. split; assumption. }
    destruct (nth_error l i) as [[x|]|] eqn:E2; cbn in Q; try contradiction.
    destruct (mset_split _ _ _ E1) as (a & b & Ea & La & Ma). destruct (mset_split _ _ _ E2) as (a' & b' & Ea' & La' & Ma').
    rewrite Ma, Ma'. rewrite Ea, Ea' in F. apply Forall2_split in F as (a2 & y & b2 & E & L & F1 & _ & F2).
    assert (a' = a2 /\ b' = b2) as (-> & ->).
    { apply (app_mid _ _ _ _ _ _ E). congruence. }
    split; cbn [mw_objs mw_texts mw_freed].
    + apply Forall2_app; [|constructor; [exact Q|constructor]]. apply Forall2_app; [exact F1|]. constructor; [reflexivity|exact F2].
    + unfold held in *. cbn [mw_objs]. rewrite Ea in P. rewrite <- P. rewrite !flat_map_app. cbn [flat_map m_buffer app]. rewrite !app_nil_r.
      apply Permutation_app_tail. rewrite <- app_assoc. apply Permutation_app_head. apply Permutation_app_comm.
  - pose proof (nth_Forall2 _ _ _ F i) as Q. unfold mget. destruct (nth_error (mw_objs w) i) as [[m|]|] eqn:E1.
    2:{ destruct (nth_error l i) as [[x|]|]; cbn in Q; try contradiction. split; assumption. }
    2:{ destruct (nth_error l i) as [x|]; [contradiction|]. split; assumption. }
    destruct (nth_error l i) as [[x|]|] eqn:E2; cbn in Q; try contradiction.
    destruct (mset_split _ _ _ E1) as (a & b & Ea & La & Ma). destruct (mset_split _ _ _ E2) as (a' & b' & Ea' & La' & Ma').
    rewrite Ma, Ma'. rewrite Ea, Ea' in F. apply Forall2_split in F as (a2 & y & b2 & E & L & F1 & _ & F2).
    assert (a' = a2 /\ b' = b2) as (-> & ->).
    { apply (app_mid _ _ _ _ _ _ E). congruence. }
    split; cbn [mw_objs mw_texts mw_freed].
    + apply Forall2_app; [exact F1|]. constructor; [exact I|exact F2].
    + unfold held in *. cbn [mw_objs]. rewrite Ea in P. rewrite <- P. rewrite !flat_map_app. cbn [flat_map app]. destruct (m_buffer m) as [k|]; [|reflexivity].
      rewrite <- !app_assoc. apply Permutation_app_head. cbn [app]. rewrite app_assoc. symmetry. apply Permutation_cons_append.
Qed.
Lemma minv_run ops : minv (mrun ops) (said ops).
Proof.
  unfold mrun, said. assert (H : minv (mkMW [] [] []) []) by (split; constructor). revert H. generalize (mkMW [] [] []), (@nil (option (option (list N)))).
  induction ops as [|o ops IH]; intros w l H; [exact H|]. cbn [fold_left]. apply IH. now apply minv_step.
Qed.

(** Whatever exceptions are made, moved and destroyed: an exception that was not moved
    from or destroyed says its text; no buffer is freed twice; and a buffer is not freed
    only while an exception holds it, so that none is left when all are gone. *)
Theorem C79_messages_partial : forall ops,
  (forall i t, nth_error (said ops) i = Some (Some (Some t)) -> mtext (mrun ops) i = Ret t) /\
  NoDup (mw_freed (mrun ops)) /\
  ((forall i, ~ exists x, nth_error (said ops) i = Some (Some x)) -> forall b, (b < length (mw_texts (mrun ops)))%nat -> In b (mw_freed (mrun ops))).
Proof.
  intros ops. destruct (minv_run ops) as (F & P). set (w := mrun ops) in *. clearbody w.
  assert (ND : NoDup (held w ++ mw_freed w)) by (eapply Permutation_NoDup; [symmetry; exact P|apply seq_NoDup]).
  split; [|split].
  - intros i t H. pose proof (nth_Forall2 _ _ _ F i) as Q. rewrite H in Q. unfold mtext, mget.
    destruct (nth_error (mw_objs w) i) as [[m|]|] eqn:E; cbn in Q; try contradiction. destruct Q as (b & EB & T & S0).
    assert (In b (held w)) as IB.
    { unfold held. apply in_flat_map. exists (Some m). split; [eapply nth_error_In; exact E|]. rewrite EB. now left. }
    rewrite EB, T, S0. destruct (existsb (Nat.eqb b) (mw_freed w)) eqn:X.
    + apply existsb_exists in X as (b' & I' & X). apply Nat.eqb_eq in X. subst b'. exfalso.
      apply in_split in IB as (h1 & h2 & HE). rewrite HE, <- app_assoc in ND. apply NoDup_remove_2 in ND. apply ND. rewrite !in_app_iff. tauto.
    + f_equal. apply ntake_all. lia.
  - clear - ND. induction (held w) as [|h l IH]; [exact ND|]. apply IH. cbn in ND. now inversion ND.
  - intros N0 b Hb. assert (I0 : In b (seq 0 (length (mw_texts w)))) by (apply in_seq; lia). rewrite <- P in I0. apply in_app_or in I0 as [I0|I0]; [|exact I0].
    unfold held in I0. apply in_flat_map in I0 as (o & IO & I1). destruct o as [m|]; [|contradiction].
    apply In_nth_error in IO as (i & E). pose proof (nth_Forall2 _ _ _ F i) as Q. rewrite E in Q.
    destruct (nth_error (said ops) i) as [[x|]|] eqn:Es; cbn in Q; try contradiction. exfalso. apply (N0 i). eauto.
Qed.
Print Assumptions C79_messages_partial.
Example C79_case : let ops := [MNew [97; 98]; MMove 0; MNew [99]; MMove 1; MDestroy 0] in
  said ops = [None; Some None; Some (Some [99]); Some (Some [97; 98])] /\ mtext (mrun ops) 3 = Ret [97; 98].
Proof. split; reflexivity. Qed.

(** A moved-from exception keeps the size of its message without the message. *)
Theorem C79_moved_from_refuted : forall t, t <> [] -> mtext (mrun [MNew t; MMove 0]) 0 = UB.
Proof.
  intros [|c t] H; [congruence|]. unfold mrun, mtext, mget. cbn [fold_left mstep mw_objs mw_texts mw_freed app length nth_error mset mget m_size m_buffer].
  rewrite size_cons. destruct (N.eqb_spec (size t + 1) 0); [lia|reflexivity].
Qed.
Print Assumptions C79_moved_from_refuted.
