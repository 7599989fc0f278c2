(** C144, C145: assertions of every kind with any tag; what exceptions say in any history. *)
From Coq Require Import Ascii String Permutation.
From Verif Require Import Base BaseLemmas FmtModel FmtSpec FmtProofs AtomSpec ExceptionModel ExceptionSpec ExceptionProofs ExceptionProps ExceptionAllProps AssertModel.
Notation length := List.length.

(** ** What assertions mean *)
(** What a call asks for. *)
Definition asks (a : assertion) : Prop :=
  match a with
  | ATrue c _ | ATrue1 c | AErrno c _ => c = true
  | ANull p _ | ANull1 p => p = 0
  | ANotNull p _ | ANotNull1 p => p <> 0
  | AInvalidState _ | AFail _ | AFailErrno _ => False
  | AValue i a b _ => a <= i < b
  | AIndex i n _ => i < n
  end.
(** What it gives back if it has it. *)
Definition gives (a : assertion) : N :=
  match a with
  | ANull p _ | ANull1 p | ANotNull p _ | ANotNull1 p => p
  | AValue i _ _ _ | AIndex i _ _ => i
  | _ => 0
  end.
(** Arguments of the types of the functions. *)
Definition args_ok (errno : Z) (a : assertion) : Prop :=
  (- 2 ^ 31 <= errno < 2 ^ 31)%Z /\
  match a with
  | AValue i a b _ => i < 2 ^ 64 /\ a < 2 ^ 64 /\ b < 2 ^ 64
  | AIndex i n _ => i < 2 ^ 64 /\ n < 2 ^ 64
  | _ => True
  end.
(** A C string as the text shown: nothing for nullptr; a text of [n] characters is taken
    for its first [n mod 2^16]. *)
Definition shown (p : option (list N)) : list N := match p with Some s => cut16 s | None => [] end.
(** The text of the complaint. *)
Definition complains (strerror : Z -> list N) (errno : Z) (a : assertion) (t : list N) : Prop :=
  match a with
  | ATrue _ tag | AFail tag | ANull _ tag | ANotNull _ tag => t = shown tag
  | ATrue1 _ => t = lit "Assertion failed"
  | ANull1 _ | ANotNull1 _ => t = lit "Assertion violation: Null pointer value passed."
  | AErrno _ tag | AFailErrno tag => exists d, decimal_z errno d /\ t = shown tag ++ lit "[" ++ d ++ lit "]: " ++ strerror errno
  | AInvalidState None => t = lit "Invalid State"
  | AInvalidState (Some tag) => t = lit "Invalid State " ++ shown tag
  | AValue i a b None => range_text (lit "Index out of range") [] (lit "is out of range") i a b t
  | AValue i a b (Some m) => range_text (shown m) [] (lit "is out of range") i a b t
  | AIndex i n m => range_text (shown m) [] (lit "is out of range") i 0 n t
  end.
(** What becomes of a complaint of [n] characters, of 16-bit sizes. *)
Definition complaint_fate (a : assertion) (t : list N) : fate :=
  match a with
  | AInvalidState (Some _) => if size t <? 2 ^ 16 then Whole else Cut (cut16 t)
  | AErrno _ _ | AFailErrno _ => if size t + 2 <? 2 ^ 16 then Whole else Overrun
  | AValue _ _ _ _ | AIndex _ _ _ => if size t + 8 <? 2 ^ 16 then Whole else Overrun
  | _ => Whole
  end.

Lemma shown_cut p : shown p = from_cstr p.
Proof. rewrite from_cstr_cut. now destruct p. Qed.
Lemma shown_size p : size (shown p) < 65536.
Proof. destruct p; [apply cut16_size|reflexivity]. Qed.

(** The exception raised by a call, and its text. *)
Lemma raised_by errno a : ~ asks a -> exists e, assert_call errno a = inr e /\
  (args_ok errno a -> exc_ok e) /\
  (forall strerror t, complains strerror errno a t -> exc_text strerror (viewed e) t /\ fate_of e t = complaint_fate a t).
Proof.
  intros NA.
  assert (PL : forall tag, exists e, assertFail tag = inr e /\ exc_ok e /\ (forall strerror t, t = shown tag -> exc_text strerror (viewed e) t /\ fate_of e t = Whole)).
  { intros tag. exists (Plain (from_cstr tag)). split; [reflexivity|]. rewrite <- shown_cut. split; [cbn [exc_ok]; change (2 ^ 16) with 65536; apply shown_size|].
    intros st t ->. split; [reflexivity|]. unfold fate_of. cbn [slack]. change (2 ^ 16) with 65536. pose proof (shown_size tag). destruct (N.ltb_spec (size (shown tag) + 0) 65536); [reflexivity|lia]. }
  assert (EL : forall tag, exists e, assertFailErrno errno tag = inr e /\ ((- 2 ^ 31 <= errno < 2 ^ 31)%Z -> exc_ok e) /\
     (forall strerror t, (exists d, decimal_z errno d /\ t = shown tag ++ lit "[" ++ d ++ lit "]: " ++ strerror errno) -> exc_text strerror (viewed e) t /\ fate_of e t = if size t + 2 <? 2 ^ 16 then Whole else Overrun)).
  { intros tag. exists (IOErrorMsg errno (from_cstr tag)). split; [reflexivity|]. rewrite <- shown_cut. split; [intros H; split; [exact H|]; change (2 ^ 16) with 65536; apply shown_size|].
    intros st t T. split; [exact T|reflexivity]. }
  assert (RI : forall i a b m, (forall strerror t, range_text (shown m) [] (lit "is out of range") i a b t -> exc_text strerror (viewed (OutOfRangeIn i a b m)) t)).
  { intros i x b m st t T. destruct m; exact T. }
  destruct a as [c t|c|c t|p m|p m|p|p|t|t|t|i x b m|i n m]; cbn [asks assert_call complains complaint_fate] in *; unfold args_ok.
  - destruct c; [congruence|]. destruct (PL t) as (e & E & O & T). exists e. split; [exact E|]. split; [intros _; exact O|exact T].
  - destruct c; [congruence|]. destruct (PL (Some (lit "Assertion failed"))) as (e & E & O & T). exists e. split; [exact E|]. split; [intros _; exact O|exact T].
  - destruct c; [congruence|]. destruct (EL t) as (e & E & O & T). exists e. split; [exact E|]. split; [intros [H _]; exact (O H)|exact T].
  - unfold assertNull, assertTrue. destruct (N.eqb_spec p 0); [congruence|]. destruct (PL m) as (e & E & O & T). exists e. cbn [negb]. rewrite E. split; [reflexivity|]. split; [intros _; exact O|exact T].
  - unfold assertNotNull, assertTrue. destruct (N.eqb_spec p 0) as [Z0|Z0]; [|contradiction]. destruct (PL m) as (e & E & O & T). exists e. cbn [negb]. rewrite E. split; [reflexivity|]. split; [intros _; exact O|exact T].
  - unfold assertNull1, assertNull, assertTrue. destruct (N.eqb_spec p 0); [congruence|]. destruct (PL (Some (lit "Assertion violation: Null pointer value passed."))) as (e & E & O & T). exists e. cbn [negb]. rewrite E. split; [reflexivity|]. split; [intros _; exact O|exact T].
  - unfold assertNotNull1, assertNotNull, assertTrue. destruct (N.eqb_spec p 0) as [Z0|Z0]; [|contradiction]. destruct (PL (Some (lit "Assertion violation: Null pointer value passed."))) as (e & E & O & T). exists e. cbn [negb]. rewrite E. split; [reflexivity|]. split; [intros _; exact O|exact T].
  - destruct t as [t|]; eexists; (split; [reflexivity|]); (split; [intros _; exact I|]); intros st u T.
    + split; [destruct t; exact T|]. unfold fate_of. cbn [slack]. now rewrite N.add_0_r.
    + split; [exact T|]. subst u. reflexivity.
  - destruct (PL t) as (e & E & O & T). exists e. split; [exact E|]. split; [intros _; exact O|exact T].
  - destruct (EL t) as (e & E & O & T). exists e. split; [exact E|]. split; [intros [H _]; exact (O H)|exact T].
  - unfold assertValueInRange. destruct (N.leb_spec b i), (N.ltb_spec i x); cbn [orb]; try lia;
    (destruct m as [m|]; eexists; (split; [reflexivity|]); (split; [intros [_ H1]; exact H1|]); intros st u T; (split; [|reflexivity]); first [exact T|now apply RI]).
  - unfold assertIndexInRange. destruct (N.leb_spec n i); [|lia]. eexists. split; [reflexivity|]. split; [intros [_ [H1 H2]]; split; [exact H1|]; split; [reflexivity|exact H2]|].
    intros st u T. split; [now apply RI|reflexivity].
Qed.

(** A call returns iff it has what it asks for, and then gives its argument back. *)
Theorem C144_passes : forall errno a, (asks a -> assert_call errno a = inl (gives a)) /\ (~ asks a -> exists e, assert_call errno a = inr e).
Proof.
  intros errno a. split; [|intros H; destruct (raised_by errno a H) as (e & E & _); eauto].
  destruct a as [c t|c|c t|p m|p m|p|p|t|t|t|i x b m|i n m]; cbn [asks gives assert_call]; intros H; try contradiction; try (subst; reflexivity).
  - unfold assertNotNull, assertTrue. destruct (N.eqb_spec p 0); [congruence|reflexivity].
  - unfold assertNotNull1, assertNotNull, assertTrue. destruct (N.eqb_spec p 0); [congruence|reflexivity].
  - unfold assertValueInRange. destruct (N.leb_spec b i), (N.ltb_spec i x); try lia. reflexivity.
  - unfold assertIndexInRange. destruct (N.leb_spec n i); [lia|reflexivity].
Qed.
Print Assumptions C144_passes.

(** Otherwise the exception complains with exactly the text meant, the beginning of it, or
    memory is overrun, as its length says. *)
Theorem C144_complaint : forall strerror errno a t, args_ok errno a -> (forall c, size (strerror c) < 2 ^ 15) -> ~ asks a -> complains strerror errno a t ->
  exists e, assert_call errno a = inr e /\
  match complaint_fate a t with
  | Overrun => exc_build true strerror e = UB
  | Whole => exists s, exc_build true strerror e = Ret s /\ es_view s = Ret t /\ es_cstr s = Ret (c_string t)
  | Cut u => exists s, exc_build true strerror e = Ret s /\ es_view s = Ret u /\ es_cstr s = Ret (c_string u)
  end.
Proof.
  intros strerror errno a t OK ST NA T. destruct (raised_by errno a NA) as (e & E & O & H). destruct (H strerror t T) as [X F]. exists e. split; [exact E|].
  rewrite <- F. now apply C139_message; [apply O|exact ST|exact X].
Qed.
Print Assumptions C144_complaint.

(** Every complaint has a text. *)
Theorem C144_has_text : forall strerror errno a, exists t, complains strerror errno a t.
Proof.
  intros strerror errno a.
  assert (R : forall m i x b, exists t, range_text m [] (lit "is out of range") i x b t).
  { intros m i x b. eexists. exists (dec i), (dec x), (dec b). split; [apply dec_spec|]. split; [apply dec_spec|]. split; [apply dec_spec|]. reflexivity. }
  assert (D : exists d, decimal_z errno d).
  { eexists. exists (dec (Z.abs_N errno)). split; [apply dec_spec|reflexivity]. }
  destruct D as (d & D).
  destruct a as [c t|c|c t|p m|p m|p|p|[t|]|t|t|i x b [m|]|i n m]; cbn [complains]; eauto.
Qed.
Print Assumptions C144_has_text.

(** A function that asserts several things returns all of them, or stops at the first it
    does not have: its complaint is the one of that assertion and of none after it. *)
Theorem C144_sequence : forall calls,
  (Forall (fun c => asks (snd c)) calls -> assert_all calls = (map (fun c => gives (snd c)) calls, None)) /\
  (forall before errno a after, calls = before ++ (errno, a) :: after -> Forall (fun c => asks (snd c)) before -> ~ asks a ->
    exists e, assert_call errno a = inr e /\ assert_all calls = (map (fun c => gives (snd c)) before, Some e)).
Proof.
  assert (P : forall before rest, Forall (fun c => asks (snd c)) before ->
     assert_all (before ++ rest) = (map (fun c => gives (snd c)) before ++ fst (assert_all rest), snd (assert_all rest))).
  { induction before as [|[errno a] l IH]; intros rest F; [cbn [app map]; now destruct (assert_all rest)|].
    inversion F as [|? ? H F']; subst. cbn [app assert_all map snd]. rewrite (proj1 (C144_passes errno a) H). rewrite (IH rest F'). reflexivity. }
  intros calls. split.
  - intros F. rewrite <- (app_nil_r calls) at 1. rewrite P by exact F. cbn [assert_all fst snd]. now rewrite app_nil_r.
  - intros before errno a after -> F NA. destruct (proj2 (C144_passes errno a) NA) as (e & E). exists e. split; [exact E|].
    rewrite P by exact F. cbn [assert_all]. rewrite E. cbn [fst snd]. now rewrite app_nil_r.
Qed.
Print Assumptions C144_sequence.

Example C144_case : ~ asks (AErrno false (Some (lit "open"))) /\ complains (fun _ => lit "No such file") 2 (AErrno false (Some (lit "open"))) (lit "open[2]: No such file") /\
  assert_all [(0%Z, ANotNull1 7); (0%Z, AIndex 3 5 None); (0%Z, ANull1 9); (0%Z, ATrue1 false)] = ([7; 3], Some (Plain (lit "Assertion violation: Null pointer value passed."))).
Proof.
  split; [cbn; discriminate|]. split; [|reflexivity]. cbn [complains]. exists (lit "2"). split; [|reflexivity]. exists (dec 2). split; [apply dec_spec|reflexivity].
Qed.

(** ** C145: what exceptions say, in any history *)
(** An exception: one that has its text, one that was moved from (or made from such), and
    one destroyed. *)
Inductive voice := Speaks (t : list N) | Hollow (t : list N) | Gone.
Definition voice_step (l : list voice) (o : mop) : list voice :=
  match o with
  | MNew t => l ++ [Speaks t]
  | MMove i =>
      match nth_error l i with
      | Some (Speaks t) => mset l i (Hollow t) ++ [Speaks t]
      | Some (Hollow t) => l ++ [Hollow t]
      | _ => l
      end
  | MDestroy i => match nth_error l i with Some (Speaks _) | Some (Hollow _) => mset l i Gone | _ => l end
  end.
Definition voices (ops : list mop) : list voice := fold_left voice_step ops [].

Definition plain_voice (v : voice) : option (option (list N)) :=
  match v with Speaks t => Some (Some t) | Hollow _ => Some None | Gone => None end.
Lemma map_mset {A B} (f : A -> B) l : forall i x, map f (mset l i x) = mset (map f l) i (f x).
Proof. induction l as [|y l IH]; intros [|i] x; cbn; [reflexivity|reflexivity|reflexivity|now rewrite IH]. Qed.
Lemma mset_same {A} (l : list A) : forall i x, nth_error l i = Some x -> mset l i x = l.
Proof. induction l as [|y l IH]; intros [|i] x H; cbn in *; try discriminate; [congruence|]. now rewrite IH. Qed.
Lemma voices_said ops : map plain_voice (voices ops) = said ops.
Proof.
  unfold voices, said. change (@nil (option (option (list N)))) with (map plain_voice []). generalize (@nil voice).
  induction ops as [|o ops IH]; intros l; [reflexivity|]. cbn [fold_left]. rewrite IH. f_equal.
  destruct o as [t|i|i]; cbn [voice_step said_step].
  - now rewrite map_app.
  - rewrite nth_error_map. destruct (nth_error l i) as [[t|t|]|] eqn:E; cbn [option_map plain_voice]; try reflexivity.
    + now rewrite map_app, map_mset.
    + rewrite map_app. cbn [map plain_voice]. f_equal. symmetry. apply mset_same. now rewrite nth_error_map, E.
  - rewrite nth_error_map. destruct (nth_error l i) as [[t|t|]|] eqn:E; cbn [option_map plain_voice]; try reflexivity; now rewrite map_mset.
Qed.
(** Sizes survive moves. *)
Definition sized (o : option message_obj) (v : voice) : Prop :=
  match o, v with
  | None, Gone => True
  | Some m, Speaks t => m_size m = size t
  | Some m, Hollow t => m_size m = size t /\ m_buffer m = None
  | _, _ => False
  end.
Lemma Forall2_mset {A B} (R : A -> B -> Prop) l l' : Forall2 R l l' -> forall i x y, R x y -> Forall2 R (mset l i x) (mset l' i y).
Proof. induction 1; intros [|i] a b K; cbn; constructor; auto. Qed.
Lemma sized_run ops : Forall2 sized (mw_objs (mrun ops)) (voices ops).
Proof.
  unfold mrun, voices. assert (H : Forall2 sized (mw_objs (mkMW [] [] [])) []) by constructor. revert H. generalize (mkMW [] [] []), (@nil voice).
  induction ops as [|o ops IH]; intros w l F; [exact F|]. cbn [fold_left]. apply IH. clear IH ops.
  destruct o as [t|i|i]; cbn [mstep voice_step].
  - cbn [mw_objs]. apply Forall2_app; [exact F|]. constructor; [reflexivity|constructor].
  - pose proof (nth_Forall2 _ _ _ F i) as Q. unfold mget. destruct (nth_error (mw_objs w) i) as [[m|]|] eqn:E1, (nth_error l i) as [[t|t|]|] eqn:E2; cbn in Q; try contradiction; try exact F.
    + cbn [mw_objs]. apply Forall2_app; [|constructor; [exact Q|constructor]]. apply Forall2_mset; [exact F|]. split; [exact Q|reflexivity].
    + cbn [mw_objs]. apply Forall2_app; [|constructor; [exact Q|constructor]]. rewrite <- (mset_same l i _ E2). apply Forall2_mset; [exact F|]. split; [apply Q|reflexivity].
  - pose proof (nth_Forall2 _ _ _ F i) as Q. unfold mget. destruct (nth_error (mw_objs w) i) as [[m|]|] eqn:E1, (nth_error l i) as [[t|t|]|] eqn:E2; cbn in Q; try contradiction; try exact F; cbn [mw_objs]; (apply Forall2_mset; [exact F|exact I]).
Qed.

(** Asking an exception for its text: its text; nothing, if it was moved from and the text
    was empty; and undefined, if it was moved from otherwise, destroyed or never made. *)
Theorem C145_says : forall ops i,
  mtext (mrun ops) i =
    match nth_error (voices ops) i with
    | Some (Speaks t) => Ret t
    | Some (Hollow []) => Ret []
    | _ => UB
    end.
Proof.
  intros ops i. destruct (nth_error (voices ops) i) as [[t|t|]|] eqn:E.
  - apply (proj1 (C79_messages_partial ops)). rewrite <- voices_said, nth_error_map, E. reflexivity.
  - pose proof (nth_Forall2 _ _ _ (sized_run ops) i) as Q. rewrite E in Q. unfold mtext, mget.
    destruct (nth_error (mw_objs (mrun ops)) i) as [[m|]|]; cbn in Q; try contradiction. destruct Q as [S0 B0]. rewrite B0, S0.
    destruct t as [|c t]; [reflexivity|]. rewrite size_cons. destruct (N.eqb_spec (size t + 1) 0); [lia|reflexivity].
  - pose proof (nth_Forall2 _ _ _ (sized_run ops) i) as Q. rewrite E in Q. unfold mtext, mget. destruct (nth_error (mw_objs (mrun ops)) i) as [[m|]|]; cbn in Q; try contradiction. reflexivity.
  - pose proof (nth_Forall2 _ _ _ (sized_run ops) i) as Q. rewrite E in Q. unfold mtext, mget. destruct (nth_error (mw_objs (mrun ops)) i) as [[m|]|]; cbn in Q; try contradiction. reflexivity.
Qed.
Print Assumptions C145_says.

(** Memory: the buffers not yet returned are, without repetition, those of the exceptions
    that speak; so nothing is returned twice or lost. *)
Definition speaking (v : voice) : bool := match v with Speaks _ => true | _ => false end.
Theorem C145_memory : forall ops, NoDup (mw_freed (mrun ops)) /\
  (forall b, In b (mw_freed (mrun ops)) -> (b < length (mw_texts (mrun ops)))%nat) /\
  (length (filter speaking (voices ops)) + length (mw_freed (mrun ops)) = length (mw_texts (mrun ops)))%nat.
Proof.
  intros ops. split; [apply (C79_messages_partial ops)|]. destruct (minv_run ops) as [F P]. split.
  - intros b H. assert (In b (seq 0 (length (mw_texts (mrun ops))))) as K by (rewrite <- P; apply in_or_app; now right). apply in_seq in K. lia.
  - rewrite <- (seq_length (length (mw_texts (mrun ops))) 0) at 1. rewrite <- (Permutation_length P), app_length. f_equal.
    rewrite <- voices_said in F. unfold held. revert F. generalize (mw_objs (mrun ops)), (voices ops). intros os. induction os as [|o os IH]; intros [|v vs] F; inversion F; subst; [reflexivity|].
    cbn [filter flat_map]. rewrite app_length, <- IH with (l := vs) by assumption.
    destruct o as [m|], v as [t|t|]; cbn in *; try contradiction; try reflexivity.
    + destruct H2 as (b & -> & _). reflexivity.
    + rewrite H2. reflexivity.
Qed.
Print Assumptions C145_memory.
Example C145_case : let ops := [MNew [97; 98]; MMove 0; MMove 0; MNew []; MMove 3; MDestroy 1; MDestroy 0] in
  voices ops = [Gone; Gone; Hollow [97; 98]; Hollow []; Speaks []] /\ mw_freed (mrun ops) = [0%nat] /\ mtext (mrun ops) 2 = UB /\ mtext (mrun ops) 3 = Ret [].
Proof. repeat split; reflexivity. Qed.
