(** C141: the text and the length of every path, whatever its total length. *)
From Verif Require Import Base BaseLemmas StringSpec StringViewModel StringViewProofs StringModel StringProofs StringProps BuiltSpec BuiltProps PathModel PathProofs PathProps.
Ltac Zify.zify_post_hook ::= Z.div_mod_to_equations.

(** The text meant by a sequence of components: the root is the delimiter alone. *)
Definition meant (d : list N) (cs : list (list N)) : list N :=
  match cs with [[]] => d | _ => glue d cs end.

(** length() is the length of the text modulo 2^16. *)
Theorem C141_length : forall d p, sv_ok d -> Forall sv_ok (p_comps p) ->
  path_length d p = match p_comps p with [] => 0 | cs => N.of_nat (length (meant d cs)) mod 2 ^ 16 end.
Proof.
  intros d [cs cap] Hd F. unfold path_length. cbn [p_comps] in *. unfold sv_ok in *.
  destruct cs as [|c [|c2 cs]]; [reflexivity| |].
  - destruct c as [|x c]; cbn [sv_empty meant glue].
    + change (sv_empty []) with true. cbn iota. symmetry. now apply N.mod_small.
    + assert (sv_empty (x :: c) = false) as -> by (unfold sv_empty; rewrite size_cons; destruct (N.eqb_spec (size c + 1) 0); [lia|reflexivity]).
      inversion F; subst. symmetry. now apply N.mod_small.
  - transitivity (size (meant d (c :: c2 :: cs)) mod 2 ^ 16); [|reflexivity]. set (l := c :: c2 :: cs) in *. assert (meant d l = glue d l) as -> by (unfold l; destruct c; reflexivity).
    rewrite length_fold by lia. rewrite size_glue by discriminate.
    assert (size l = (size l - 1) + 1) as E by (unfold l; rewrite size_cons; lia).
    rewrite E at 1. rewrite N.mul_add_distr_l, N.mul_1_r. generalize (size d * (size l - 1)). intros x.
    unfold sub16, sub_wrap. lia.
Qed.
Print Assumptions C141_length.

Lemma all_or_nothing script : Forall (fun x => fst x = Fail) script -> forall cap,
  poured cap script = if size (whole script) <=? cap then Some (whole script) else None.
Proof.
  intros F. induction F as [|(k & t) r K F IH]; intros cap; cbn [poured].
  - destruct (N.leb_spec (size (whole [])) cap); [reflexivity|]. change (size (whole [])) with 0 in *. lia.
  - cbn [fst] in K. subst k. change (whole ((Fail, t) :: r)) with (t ++ whole r). rewrite size_app. fold (size t). rewrite IH.
    destruct (N.leb_spec (size t) cap), (N.leb_spec (size t + size (whole r)) cap); try lia; [| |reflexivity].
    + destruct (N.leb_spec (size (whole r)) (cap - size t)); [reflexivity|lia].
    + destruct (N.leb_spec (size (whole r)) (cap - size t)); [lia|reflexivity].
Qed.
Lemma separated_strict by_ l : Forall (fun x => fst x = Fail) (separated by_ (map (pair false) l)).
Proof.
  induction l as [|a [|b l] IH]; cbn [map separated]; repeat constructor. exact IH.
Qed.

(** toString(): the text if it has fewer than 2^16 bytes and memory for it is found,
    otherwise the empty text. *)
Theorem C141_text : forall alloc d p, heap_ok alloc -> sv_ok d -> Forall sv_ok (p_comps p) -> size (p_comps p) < 2 ^ 64 ->
  p_comps p <> [] -> p_cap p <> 0 ->
  let text := meant d (p_comps p) in
  exists st, path_toString alloc d p = Ret st /\
    str_view st = if size text <? 2 ^ 16 then match alloc (size text) with Ok _ => text | Err _ => [] end else [].
Proof.
  intros alloc d [cs cap] H Hd F L NE HC text. cbn [p_comps p_cap] in *. unfold path_toString, path_isAbsolute, path_empty. cbn [p_cap p_comps].
  destruct (N.eqb_spec cap 0); [congruence|]. destruct cs as [|c cs]; [congruence|]. unfold path_at. cbn [p_comps nnth N.eqb bind noexcept].
  assert (J : forall l, l <> [] -> Forall sv_ok l -> size l < 2 ^ 64 -> exists st,
    (let! r := str_join alloc d l in match r with Ok s => Ret s | Err _ => Ret (mkStr [] 0) end) = Ret st /\
    str_view st = if size (glue d l) <? 2 ^ 16 then match alloc (size (glue d l)) with Ok _ => glue d l | Err _ => [] end else []).
  { intros l Nl Fl Ll. pose proof (C133_join alloc d l H Hd Fl Ll) as B. destruct l as [|x l]; [congruence|]. unfold built in B.
    pose proof (whole_separated d (map (pair false) (x :: l))) as W. rewrite map_map in W. cbn [snd] in W. rewrite map_id in W.
    set (t := glue d (x :: l)) in *. pose proof (all_or_nothing _ (separated_strict d (x :: l))) as P. rewrite W in P. clearbody t.
    destruct (alloc (size t mod 2 ^ 16)) as [b|e] eqn:E.
    - rewrite P in B. pose proof (H _ _ E) as Sb. destruct (N.ltb_spec (size t) (2 ^ 16)) as [S|S].
      + rewrite N.mod_small in * by exact S. rewrite E. destruct (N.leb_spec (size t) (size b)); [|lia]. destruct B as (st & -> & _ & V). cbn [bind].
        exists st. split; [reflexivity|]. rewrite V, skipn_all2 by (unfold size in Sb; lia). apply app_nil_r.
      + destruct (N.leb_spec (size t) (size b)); [lia|]. rewrite B. cbn [bind]. eexists. split; reflexivity.
    - rewrite B. cbn [bind]. eexists. split; [reflexivity|]. destruct (N.ltb_spec (size t) (2 ^ 16)) as [S|S]; [|reflexivity].
      rewrite N.mod_small in E by exact S. now rewrite E. }
  destruct (sv_empty c) eqn:EC.
  - apply sv_empty_spec in EC. subst c. destruct cs as [|c2 cs].
    + change (size [@nil N] =? 1) with true. cbn [andb]. unfold text, str_make. cbn [meant]. unfold sv_ok in Hd.
      destruct (N.ltb_spec (size d) (2 ^ 16)); [|lia]. destruct (alloc (size d)) as [b|e] eqn:E; [|cbn [bind]; eexists; split; reflexivity].
      apply H in E. destruct (N.ltb_spec (size b) (size d)); [lia|]. cbn [bind]. eexists. split; [reflexivity|].
      rewrite overwrite_all by assumption. now apply str_view_exact.
    + assert ((size ([] :: c2 :: cs) =? 1) = false) as -> by (rewrite !size_cons; destruct (N.eqb_spec (size cs + 1 + 1) 1); [lia|reflexivity]).
      cbn [andb]. exact (J ([] :: c2 :: cs) ltac:(discriminate) F L).
  - cbn [andb]. assert (text = glue d (c :: cs)) as -> by (unfold text, meant; destruct c; [discriminate EC|reflexivity]).
    exact (J (c :: cs) ltac:(discriminate) F L).
Qed.
Print Assumptions C141_text.

(** Without components: a path that never had any shows whatever the memory held, of the
    size that is minus that of the delimiter; one that has lost its components ends the
    program. *)
Theorem C141_nothing : forall alloc d p, heap_ok alloc -> sv_ok d -> p_comps p = [] ->
  path_toString alloc d p =
    if p_cap p =? 0 then
      match alloc ((2 ^ 16 - N.of_nat (length d)) mod 2 ^ 16) with
      | Ok b => Ret (mkStr b ((2 ^ 16 - N.of_nat (length d)) mod 2 ^ 16))
      | Err _ => Ret (mkStr [] 0)
      end
    else Terminates.
Proof.
  intros alloc d [cs cap] H Hd E. cbn [p_comps p_cap] in *. subst cs. unfold path_toString, path_isAbsolute, path_empty. cbn [p_cap p_comps].
  destruct (N.eqb_spec cap 0); [|reflexivity]. cbn [bind andb]. unfold str_join. cbn [fold_left]. change (size (@nil (list N))) with 0. fold (size d).
  replace (u16 (u64 (size d * sub64 0 1))) with ((2 ^ 16 - size d) mod 2 ^ 16)
    by (change (sub64 0 1) with (2 ^ 64 - 1); unfold u16, u64, sv_ok in *; lia).
  destruct (alloc _); reflexivity.
Qed.
Print Assumptions C141_nothing.

(** The length is that of the text exactly when the text is the right one or is empty
    for a length that is a multiple of 2^16. *)
Theorem C141_agree : forall alloc d p, heap_full alloc -> sv_ok d -> Forall sv_ok (p_comps p) -> size (p_comps p) < 2 ^ 64 ->
  p_comps p <> [] -> p_cap p <> 0 ->
  exists st, path_toString alloc d p = Ret st /\
    (path_length d p = N.of_nat (length (str_view st)) <->
     N.of_nat (length (meant d (p_comps p))) < 2 ^ 16 \/ N.of_nat (length (meant d (p_comps p))) mod 2 ^ 16 = 0).
Proof.
  intros alloc d p (H & A) Hd F L NE HC. destruct (C141_text alloc d p H Hd F L NE HC) as (st & E & V). exists st. split; [exact E|].
  rewrite (C141_length d p Hd F). destruct (p_comps p) as [|c cs] eqn:C; [congruence|]. rewrite V. set (t := meant d (c :: cs)) in *. clearbody t. clear E V C.
  fold (size t). destruct (A (size t)) as (b & ->). destruct (N.ltb_spec (size t) (2 ^ 16)) as [S|S].
  - rewrite N.mod_small by exact S. fold (size t). tauto.
  - cbn [length N.of_nat]. split; [intros ->; now right|intros [X|X]; [lia|exact X]].
Qed.
Print Assumptions C141_agree.

(** Two components of 40000 characters have no text; the empty path shows 65535 bytes. *)
Example C141_ok : (forall s, size s = 40000 -> exists st, path_toString junk_heap [47] (mkPath [s; s] 2) = Ret st /\ str_view st = []) /\
  (exists s : list N, size s = 40000) /\
  exists st, path_toString junk_heap [47] path_none = Ret st /\ st_size st = 65535.
Proof.
  split.
  - intros s S. destruct (C141_text junk_heap [47] (mkPath [s; s] 2) junk_heap_ok) as (st & E & V).
    + reflexivity.
    + repeat constructor; unfold sv_ok; cbn [p_comps]; rewrite S; reflexivity.
    + reflexivity.
    + discriminate.
    + discriminate.
    + exists st. split; [exact E|]. rewrite V. cbn [p_comps]. assert (meant [47] [s; s] = s ++ [47] ++ s) as -> by (destruct s; reflexivity).
      rewrite !size_app, S. reflexivity.
  - split; [exists (repeat 97 (N.to_nat 40000)); unfold size; rewrite repeat_length; apply N2Nat.id|].
    rewrite (C141_nothing junk_heap [47] path_none junk_heap_ok eq_refl eq_refl). cbn [p_cap path_none N.eqb].
    change ((2 ^ 16 - N.of_nat (length [47])) mod 2 ^ 16) with 65535. unfold junk_heap. eexists. split; reflexivity.
Qed.
