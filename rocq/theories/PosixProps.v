(** C149: the errors the library makes, and how any error reads. *)
From Coq Require Import String.
From Verif Require Import Base BaseLemmas AtomModel AtomSpec AtomProofs AtomAllProps ByteIOModel ByteIOSpec ByteIOProofs StringViewModel StringModel StringSpec StringProofs StringProps.
From Verif Require Import ErrorModel ErrorProps BuiltSpec BuiltProps ExceptionModel ExceptionSpec ExceptionProofs OutputModel OutputProps DialAllProps PosixModel.
Notation length := List.length.
Ltac Zify.zify_post_hook ::= Z.div_mod_to_equations.

(** The bytes of an identifier of a domain, most significant first, up to the first NUL. *)
Definition domain_id (v : N) : list N := c_string (be_bytes 8 v ++ [0]).

Lemma domain_id_short v : size (domain_id v) <= 8.
Proof.
  unfold domain_id, size. assert (length (be_bytes 8 v) = 8%nat) as L by (unfold be_bytes; rewrite rev_length; reflexivity). destruct (in_dec N.eq_dec 0 (be_bytes 8 v)) as [I|I].
  - assert (forall s t, In 0 s -> (length (c_string (s ++ t)) <= length s)%nat) as H.
    { clear. induction s as [|c s IH]; intros t I; [destruct I|]. cbn. destruct (N.eqb_spec c 0); [cbn; lia|]. destruct I as [I|I]; [congruence|].
      cbn. specialize (IH t I). lia. }
    specialize (H _ [0] I). lia.
  - assert (forall s, ~ In 0 s -> c_string (s ++ [0]) = s) as H.
    { clear. induction s as [|c s IH]; intros H; [reflexivity|]. cbn. destruct (N.eqb_spec c 0) as [->|]; [destruct H; now left|].
      rewrite IH; [reflexivity|]. intros X. apply H. now right. }
    rewrite H by exact I. lia.
Qed.

(** The text of any error, after any registrations: that of its domain if this is among the
    first 128 registered; otherwise identifier, colon, space and tag.  If that is too long for
    a String, the text has its length modulo 65536 and shows the identifier, if this fits,
    and what the memory held before.  Without memory it is empty. *)
Theorem C149_text : forall host_be alloc message szp regs code domain tag, 0 < szp < 2 ^ 32 -> heap_ok alloc -> size tag < 2 ^ 16 ->
  exists ids r, register_all szp (autoRegisterDomainMap szp) regs = Ret (ids, r) /\
    err_toString host_be alloc message r (mkErr code domain tag) =
      Ret (match first_registered domain (firstn 128 regs) with
           | Some d => message d code
           | None =>
               let name := domain_id domain in
               let n := size name + 2 + size tag in
               match alloc (n mod 2 ^ 16) with
               | Err _ => []
               | Ok block => if n <? 2 ^ 16 then name ++ [58; 32] ++ tag
                             else if size name <=? n - 2 ^ 16 then name ++ skipn (length name) block else block
               end
           end).
Proof.
  intros host_be alloc message szp regs code domain tag Hp HA T. destruct (C53_registry szp regs Hp) as (ids & r & E & G & _). exists ids, r. split; [exact E|].
  unfold err_toString. cbn [e_domain e_code e_tag]. rewrite G. cbn [bind]. destruct (first_registered domain (firstn 128 regs)) as [d|]; [reflexivity|].
  unfold atomToString. rewrite atom_unwrap_be. fold (domain_id domain). pose proof (domain_id_short domain) as L8.
  set (name := domain_id domain) in *. cbv zeta.
  assert (A : Forall arg_ok [AText name; AText [58; 32]; AText tag]).
  { constructor; [|constructor; [|constructor; [|constructor]]]; unfold arg_ok, sv_ok; [lia|reflexivity|assumption]. }
  pose proof (C133_concat host_be alloc _ HA A) as X. cbv zeta in X. cbn [map arg_text whole] in X.
  unfold whole in X. cbn [map snd concat] in X. rewrite app_nil_r in X.
  assert (SZ : size (name ++ [58; 32] ++ tag) = size name + 2 + size tag) by (rewrite !size_app; change (size [58; 32]) with 2; lia).
  rewrite SZ in X. destruct (alloc ((size name + 2 + size tag) mod 2 ^ 16)) as [b|e] eqn:AL; cbn [built] in X.
  2: { rewrite X. reflexivity. }
  apply HA in AL. cbn [poured] in X. fold (size name) (size tag) in X. change (N.of_nat (length [58; 32])) with 2 in X.
  destruct (N.ltb_spec (size name + 2 + size tag) (2 ^ 16)) as [Y|Y].
  - rewrite N.mod_small in AL by exact Y. destruct (N.leb_spec (size name) (size b)); [|lia].
    destruct (N.leb_spec 2 (size b - size name)); [|lia]. destruct (N.leb_spec (size tag) (size b - size name - 2)); [|lia].
    cbn [option_map] in X. rewrite app_nil_r in X. destruct X as (st & -> & _ & V). cbn [bind]. rewrite V.
    rewrite skipn_all2; [now rewrite app_nil_r|]. rewrite <- SZ in AL. unfold size in AL. lia.
  - assert (size b = size name + 2 + size tag - 2 ^ 16) as AL' by lia. rewrite <- AL'.
    destruct (N.leb_spec (size name) (size b)) as [Z|Z].
    + destruct (N.leb_spec 2 (size b - size name)); [lia|]. cbn [option_map] in X. destruct X as (st & -> & _ & V). cbn [bind].
      rewrite V, app_nil_r. reflexivity.
    + destruct X as (st & -> & _ & V). cbn [bind]. now rewrite V.
Qed.
Print Assumptions C149_text.

(** Any error, printed: name of the domain if registered, otherwise its identifier (undefined
    where size_t is too small); the code in decimal; the message if registered; the tag if any. *)
Theorem C149_print : forall szt name message regs code domain tag, 0 < szt < 2 ^ 32 ->
  exists ids r c, register_all szt (autoRegisterDomainMap szt) regs = Ret (ids, r) /\ decimal_z code c /\
    out_error szt name message r (mkErr code domain tag) =
      let tail := match tag with [] => [] | _ => 58 :: tag end in
      match first_registered domain (firstn 128 regs) with
      | Some d => Ret (name d ++ 58 :: c ++ 58 :: message d code ++ tail)
      | None => if szt <? 8 then UB else Ret (domain_id domain ++ 58 :: c ++ 58 :: tail)
      end.
Proof.
  intros szt name message regs code domain tag Z. destruct (C53_registry szt regs) as (ids & r & E & G & _); [lia|]. exists ids, r, (decz code). split; [exact E|].
  split; [apply decz_spec|]. unfold out_error. cbn [e_domain e_code e_tag]. rewrite G. cbn [bind].
  assert (Tl : forall t, Ret (if size tag =? 0 then t else t ++ lit ":" ++ tag) = Ret (t ++ match tag with [] => [] | _ => 58 :: tag end)).
  { intros t. f_equal. destruct tag as [|x y]; [symmetry; apply app_nil_r|].
    rewrite (proj2 (N.eqb_neq (size (x :: y)) 0)) by (rewrite size_cons; lia). reflexivity. }
  destruct (first_registered domain (firstn 128 regs)) as [d|]; cbn [bind].
  - rewrite Tl. change (lit ":") with [58]. cbn [app]. rewrite <- ?app_assoc. cbn [app]. rewrite <- ?app_assoc. reflexivity.
  - unfold out_atom. destruct (atom_bytes domain) as (_ & L & _).
    assert (size (atomToString domain) = 9) as -> by (unfold size; now rewrite L).
    destruct (N.ltb_spec szt 8) as [Y|Y].
    + destruct (N.leb_spec 9 (szt + 1)); [lia|reflexivity].
    + destruct (N.leb_spec 9 (szt + 1)); [|lia]. rewrite read_cstr_spec by apply atom_zero. cbn [bind]. rewrite Tl. change (lit ":") with [58].
      unfold atomToString. rewrite atom_unwrap_be. fold (domain_id domain). cbn [app].
      rewrite <- ?app_assoc. cbn [app]. rewrite <- ?app_assoc. reflexivity.
Qed.
Print Assumptions C149_print.

(** Every error made here is of one domain, has the code given, and reads as what
    the C library says of the code, whatever was registered later, even under the same
    identifier, and whatever the tag is; or as a fixed text without memory. *)
Theorem C149_posix : forall host_be alloc strerror szp system regs code tag, 0 < szp < 2 ^ 32 -> heap_ok alloc ->
  exists t r0 ids r, before_main szp system true = Ret r0 /\ register_all szp r0 regs = Ret (ids, r) /\
    system_message alloc strerror code = Ret t /\
    (size (strerror code) < 2 ^ 16 ->
       t = match alloc (size (strerror code)) with Ok _ => strerror code | Err _ => lit "PosixSystemError: Failed to get error string" end) /\
    forall message e, message system code = t ->
      e = makeError code tag \/ e = makeSystemError code (Some tag) \/ e = makeErrno code (Some tag) \/ e = makeSystemError code None \/ e = makeErrno code None ->
      e_code e = code /\ e_domain e = kSystemCatergory /\ err_toString host_be alloc message r e = Ret t.
Proof.
  intros host_be alloc strerror szp system regs code tag Hp HA.
  unfold before_main. assert (atom_literal posix_text = Ret kSystemCatergory) as -> by (vm_compute; reflexivity). cbn [bind].
  destruct (register_ok szp _ _ kSystemCatergory system ltac:(lia) (reg_new_ok szp Hp)) as (r0 & -> & H0). cbn [bind snd].
  destruct (register_all_ok szp regs ltac:(lia) r0 _ H0) as (r & E & H).
  assert (forall x, sv_ok (ntake (u16 (size x)) x)) as OK.
  { intros x. unfold sv_ok. rewrite size_ntake. unfold u16. lia. }
  pose proof (C26_copy alloc _ HA (OK (strerror code))) as C.
  assert (exists t, system_message alloc strerror code = Ret t /\ (size (strerror code) < 2 ^ 16 ->
       t = match alloc (size (strerror code)) with Ok _ => strerror code | Err _ => lit "PosixSystemError: Failed to get error string" end)) as (t & M & TX).
  { unfold system_message. set (x := ntake _ _) in *.
    assert (size (strerror code) < 2 ^ 16 -> x = strerror code) as XE.
    { intros L. unfold x. apply ntake_all. unfold u16. rewrite N.mod_small by exact L. lia. }
    destruct (alloc (size x)) as [b|e] eqn:AL.
    - destruct C as (st & -> & V & _). cbn [bind]. eexists. split; [reflexivity|]. intros L. rewrite V. rewrite XE in * by exact L. now rewrite AL.
    - rewrite C. cbn [bind]. eexists. split; [reflexivity|]. intros L. rewrite XE in * by exact L. now rewrite AL. }
  eexists t, r0, _, r. split; [reflexivity|]. split; [exact E|]. split; [exact M|]. split; [exact TX|].
  intros message e ME WH.
  assert (e_code e = code /\ e_domain e = kSystemCatergory) as (-> & De) by (destruct WH as [-> |[-> |[-> |[-> | ->]]]]; split; reflexivity).
  repeat split; [exact De|]. unfold err_toString. assert (e_code e = code) as Ce by (destruct WH as [-> |[-> |[-> |[-> | ->]]]]; reflexivity).
  rewrite De, Ce, (find_ok szp _ _ _ H). cbn [bind firstn app first_registered]. rewrite N.eqb_refl. now rewrite ME.
Qed.
Print Assumptions C149_posix.
(** The tag given is kept and printed last; without one nothing follows the message. *)
Theorem C149_tag : forall szt name message system regs code tag, 0 < szt < 2 ^ 32 ->
  exists r0 ids r c, before_main szt system true = Ret r0 /\ register_all szt r0 regs = Ret (ids, r) /\ decimal_z code c /\
    forall e t, (e = makeError code tag \/ e = makeSystemError code (Some tag) \/ e = makeErrno code (Some tag)) /\ t = tag \/
                (e = makeSystemError code None \/ e = makeErrno code None) /\ t = [] ->
      e_tag e = t /\
      out_error szt name message r e = Ret (name system ++ 58 :: c ++ 58 :: message system code ++ match t with [] => [] | _ => 58 :: t end).
Proof.
  intros szt name message system regs code tag Hp.
  unfold before_main. assert (atom_literal posix_text = Ret kSystemCatergory) as -> by (vm_compute; reflexivity). cbn [bind].
  destruct (register_ok szt _ _ kSystemCatergory system ltac:(lia) (reg_new_ok szt Hp)) as (r0 & -> & H0). cbn [bind snd].
  destruct (register_all_ok szt regs ltac:(lia) r0 _ H0) as (r & E & H).
  eexists r0, _, r, (decz code). split; [reflexivity|]. split; [exact E|]. split; [apply decz_spec|]. intros e t W.
  assert (e = mkErr code kSystemCatergory t) as -> by (destruct W as [([-> |[-> | ->]] & ->)|([-> | ->] & ->)]; reflexivity).
  split; [reflexivity|]. unfold out_error. cbn [e_code e_domain e_tag]. rewrite (find_ok szt _ _ _ H). cbn [bind firstn app first_registered]. rewrite N.eqb_refl.
  assert (Tl : forall x, Ret (if size t =? 0 then x else x ++ lit ":" ++ t) = Ret (x ++ match t with [] => [] | _ => 58 :: t end)).
  { intros x. f_equal. destruct t as [|y z]; [symmetry; apply app_nil_r|].
    rewrite (proj2 (N.eqb_neq (size (y :: z)) 0)) by (rewrite size_cons; lia). reflexivity. }
  cbn [bind]. rewrite Tl. change (lit ":") with [58]. cbn [app]. rewrite <- ?app_assoc. cbn [app]. rewrite <- ?app_assoc. reflexivity.
Qed.
Print Assumptions C149_tag.

(** ** The names *)
(** A name of one of the three enumerations and the error made of it. *)
Inductive enumeration := Basic | Generic | System.
Definition values (k : enumeration) : list (string * Z) :=
  match k with Basic => basic_errors | Generic => generic_errors | System => system_errors end.
Definition named (k : enumeration) (n : string) (tag : list N) (e : err) : Prop := exists c, In (n, c) (values k) /\ e = makeError c tag.

Definition kind_eqb (a b : enumeration) : bool := match a, b with Basic, Basic | Generic, Generic | System, System => true | _, _ => false end.
Definition twins (k k' : enumeration) (n n' : string) : bool :=
  (kind_eqb k k' && String.eqb n n') ||
  match k, k' with
  | Basic, Generic => String.eqb n "InvalidInput" && String.eqb n' "PERM"
  | Generic, System => String.eqb n "AGAIN" && String.eqb n' "WOULDBLOCK"
  | _, _ => false
  end.
Definition check (k k' : enumeration) : bool :=
  forallb (fun a => forallb (fun b => Bool.eqb (Z.eqb (snd a) (snd b)) (twins k k' (fst a) (fst b) || twins k' k (fst b) (fst a))) (values k')) (values k).
Lemma checked : forallb (fun k => forallb (check k) [Basic; Generic; System]) [Basic; Generic; System] = true.
Proof. vm_compute. reflexivity. Qed.
Lemma named_equal k k' n n' c c' : In (n, c) (values k) -> In (n', c') (values k') ->
  (c = c' <-> twins k k' n n' = true \/ twins k' k n' n = true).
Proof.
  intros I J. pose proof checked as H. rewrite forallb_forall in H. specialize (H k ltac:(destruct k; cbn; tauto)).
  rewrite forallb_forall in H. specialize (H k' ltac:(destruct k'; cbn; tauto)). unfold check in H.
  rewrite forallb_forall in H. specialize (H _ I). rewrite forallb_forall in H. specialize (H _ J). cbn [fst snd] in H.
  apply Bool.eqb_prop in H. rewrite <- orb_true_iff, <- H. symmetry. apply Z.eqb_eq.
Qed.
(** Errors made of two names are equal, whatever their tags, only if it is one name, or the
    names are InvalidInput and PERM (different errors that cannot be told apart), or AGAIN
    and WOULDBLOCK.  The only one that counts as no error is BasicError::Overflow. *)
Theorem C149_names : forall k k' n n' tag tag' e e', named k n tag e -> named k' n' tag' e' ->
  (err_eq e e' = true <->
     (k = k' /\ n = n') \/
     (k = Basic /\ n = "InvalidInput" /\ k' = Generic /\ n' = "PERM")%string \/ (k' = Basic /\ n' = "InvalidInput" /\ k = Generic /\ n = "PERM")%string \/
     (k = Generic /\ n = "AGAIN" /\ k' = System /\ n' = "WOULDBLOCK")%string \/ (k' = Generic /\ n' = "AGAIN" /\ k = System /\ n = "WOULDBLOCK")%string) /\
  (err_bool e = false <-> k = Basic /\ n = "Overflow"%string).
Proof.
  intros k k' n n' tag tag' e e' (c & I & ->) (c' & J & ->). split.
  - unfold makeError. rewrite C131_equal. transitivity (c = c'); [tauto|]. rewrite (named_equal k k' n n' c c' I J). unfold twins.
    destruct k, k'; cbn [kind_eqb andb]; rewrite ?orb_false_r, ?orb_false_l, ?andb_true_iff, ?String.eqb_eq; intuition (try congruence).
  - unfold makeError. rewrite (proj1 (C131_zero_and_swap c kSystemCatergory tag (mkErr c 0 []))). split.
    + intros ->. assert (forall k n, In (n, 0%Z) (values k) -> k = Basic /\ n = "Overflow"%string) as H; [|now apply H].
      clear. intros [] n I; cbn in I; repeat (destruct I as [I|I]; [now inversion I|]); destruct I.
    + intros (-> & ->). cbn in I. repeat (destruct I as [I|I]; [now inversion I|]). destruct I.
Qed.
Print Assumptions C149_names.

Example C149_case_names : named Basic "Overflow" [1] (makeError 0 [1]) /\ named System "Overflow" [] (makeError 75 []) /\
  err_eq (makeError 1 [1]) (makeError 1 [2]) = true.
Proof. repeat split; try (eexists; split; [|reflexivity]); cbn; tauto. Qed.
(** Two domains registered; "ab" is not. *)
Example C149_case_text : exists ids r, register_all 8 (autoRegisterDomainMap 8) [(5, 100); (7, 200)] = Ret (ids, r) /\
  err_toString false junk_heap (fun p c => [p; Z.to_N c]) r (mkErr 3 7 [120]) = Ret [200; 3] /\
  err_toString false junk_heap (fun p c => [p; Z.to_N c]) r (mkErr 3 (24930 * 2 ^ 48) [120]) = Ret [97; 98; 58; 32; 120].
Proof.
  destruct (C149_text false junk_heap (fun p c => [p; Z.to_N c]) 8 [(5, 100); (7, 200)] 3 7 [120]) as (ids & r & E & A); [lia|apply junk_heap_ok|reflexivity|].
  destruct (C149_text false junk_heap (fun p c => [p; Z.to_N c]) 8 [(5, 100); (7, 200)] 3 (24930 * 2 ^ 48) [120]) as (ids' & r' & E' & B); [lia|apply junk_heap_ok|reflexivity|].
  rewrite E in E'. injection E' as _ <-. exists ids, r. split; [exact E|]. rewrite A, B. split; vm_compute; reflexivity.
Qed.
