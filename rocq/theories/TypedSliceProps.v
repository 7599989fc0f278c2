(** C156: what a slice of a view of elements shows, for all bounds. *)
From Verif Require Import Base BaseLemmas MemViewModel MemViewSpec MemViewProofs TypedModel TypedSpec TypedProofs TypedProps.

(** The bytes between the two byte offsets, computed modulo 2^64. *)
Theorem C156_slice : forall w i j c from to, t_reachable w -> t_fair w (TSlice i j c from to) ->
  exists w', t_step (TSlice i j c from to) w = Ret (TDone, w') /\ tw_mem w' = tw_mem w /\ (forall m, m <> i -> tw_vars w' m = tw_vars w m) /\
    t_width w' i = t_width w j /\
    t_shown w' i = range ((from * t_width w j) mod 2 ^ 64) ((to * t_width w j) mod 2 ^ 64) (t_shown w j).
Proof.
  intros w i j c from to R ((Nw & O) & _). red in Nw. pose proof (t_reachable_inv w R) as I. pose proof I as (_ & VS). destruct (old_tvar w j O) as (k & v & E). destruct (VS _ _ _ E) as (V & G & P).
  destruct (t_slice_ok (tw_mem w) k c v from to V G P) as (v' & X & V' & _).
  exists (mkTW (tw_mem w) (tset (tw_vars w) i (Some (if c then as_const k else k, v')))). split; [cbn; now rewrite E, Nw, X|]. split; [reflexivity|]. split; [intros m M; cbn [tw_vars]; now apply tset_other|].
  rewrite (p_width w j k v E). unfold t_shown at 2. rewrite E. split; [unfold t_width, t_kind; cbn [tw_vars]; rewrite tset_same; now destruct c|].
  unfold t_shown. cbn [tw_vars tw_mem]. rewrite tset_same. unfold t_slice in X. set (s := if (c || t_const k)%bool then _ else _) in X.
  assert (s = v') as <-.
  { assert (valid (tw_mem w) s) as Vs by (unfold s; destruct (_ || _)%bool; [now apply slice_valid|now apply mslice_valid]).
    rewrite (ViewsProofs.ctor_ok (tw_mem w)) in X by exact Vs. cbn in X. destruct s; now injection X. }
  unfold s. destruct (_ || _)%bool; [now apply slice_contents|now apply mslice_contents].
Qed.
Print Assumptions C156_slice.

(** Elements whose size is a power of two: both positions count modulo 2^64 / size. *)
Theorem C156_elements : forall w i j c from to w' e, t_reachable w -> t_fair w (TSlice i j c from to) -> t_step (TSlice i j c from to) w = Ret (TDone, w') ->
  e < 64 -> t_width w j = 2 ^ e ->
  elems w' i = firstn (N.to_nat (to mod 2 ^ (64 - e)) - N.to_nat (from mod 2 ^ (64 - e))) (skipn (N.to_nat (from mod 2 ^ (64 - e))) (elems w j)).
Proof.
  intros w i j c from to w' e R F E Le We. destruct (C156_slice w i j c from to R F) as (w1 & E1 & _ & _ & W & Sh). rewrite E in E1. injection E1 as <-.
  unfold elems. rewrite W, Sh, We, range_spec, ntake_firstn, ndrop_skipn.
  assert (M : forall n, (n * 2 ^ e) mod 2 ^ 64 = (n mod 2 ^ (64 - e)) * 2 ^ e).
  { intros n. replace (2 ^ 64) with (2 ^ (64 - e) * 2 ^ e) by (rewrite <- N.pow_add_r; f_equal; lia). apply N.mul_mod_distr_r; apply N.pow_nonzero; lia. }
  rewrite !M. assert (0 < N.to_nat (2 ^ e))%nat as Z by (assert (2 ^ e <> 0) by (apply N.pow_nonzero; lia); lia).
  rewrite <- (pieces_range (N.to_nat (2 ^ e)) Z). rewrite Nnat.N2Nat.inj_sub, !Nnat.N2Nat.inj_mul. reflexivity.
Qed.
Print Assumptions C156_elements.

(** slice(from, 2^64 - 1) is the rest of the elements, for elements of every size. *)
Theorem C156_rest : forall w i j c from w', t_reachable w -> t_fair w (TSlice i j c from (2 ^ 64 - 1)) -> t_step (TSlice i j c from (2 ^ 64 - 1)) w = Ret (TDone, w') ->
  from * t_width w j < 2 ^ 64 -> N.of_nat (length (t_shown w j)) <= 2 ^ 64 - t_width w j ->
  elems w' i = skipn (N.to_nat from) (elems w j).
Proof.
  intros w i j c from w' R F E L B. destruct (C156_slice w i j c from _ R F) as (w1 & E1 & _ & _ & W & Sh). rewrite E in E1. injection E1 as <-.
  assert (Z : 0 < t_width w j < 2 ^ 64).
  { pose proof (t_reachable_inv w R) as (_ & VS). destruct F as ((_ & O) & _). destruct (old_tvar w j O) as (k & v & Ej). rewrite (p_width w j k v Ej). now destruct (VS _ _ _ Ej) as (_ & (G & _) & _). }
  unfold elems. rewrite W, Sh. set (sz := t_width w j) in *. rewrite (N.mod_small (from * sz)) by exact L.
  assert (((2 ^ 64 - 1) * sz) mod 2 ^ 64 = 2 ^ 64 - sz) as ->.
  { symmetry. apply N.mod_unique with (sz - 1); [lia|]. change (2 ^ 64) with 18446744073709551616 in *. lia. }
  rewrite range_spec, ntake_firstn, ndrop_skipn. rewrite firstn_all2 by (rewrite skipn_length; lia).
  set (bs := t_shown w j) in *. assert (0 < N.to_nat sz)%nat as Z' by lia. pose proof (pieces_range (N.to_nat sz) Z' bs (N.to_nat from) (N.to_nat from + length bs)) as Q.
  replace (N.to_nat from + length bs - N.to_nat from)%nat with (length bs) in Q by lia.
  replace (N.to_nat (from * sz)) with (N.to_nat from * N.to_nat sz)%nat by (rewrite Nnat.N2Nat.inj_mul; reflexivity).
  rewrite (firstn_all2 (skipn (N.to_nat from * N.to_nat sz) bs)) in Q by (rewrite skipn_length; nia).
  rewrite Q. apply firstn_all2. rewrite skipn_length, pieces_length by exact Z'. assert (length bs / N.to_nat sz <= length bs)%nat by (apply Nat.div_le_upper_bound; nia). lia.
Qed.
Print Assumptions C156_rest.

(** Elements of three bytes: such a slice shows an element made of the bytes of two. *)
Definition three : tkind := mkT 3 1 false.
Definition far : N := (2 ^ 64 + 2) / 3.
Example C156_ok : exists w, t_reachable w /\ elems w 0 = [[1; 2; 3]; [4; 5; 6]] /\ t_fair w (TSlice 1 0 false far (far + 1)) /\
  exists w', t_step (TSlice 1 0 false far (far + 1)) w = Ret (TDone, w') /\ elems w' 1 = [[3; 4; 5]].
Proof.
  exists (last_of (t_run [TWrap 0 three (Some 0) 2] (t_start [1; 2; 3; 4; 5; 6]))). split.
  - exists [1; 2; 3; 4; 5; 6], [TWrap 0 three (Some 0) 2]. eexists. split; [reflexivity|]. split; [|reflexivity].
    split; [|intros a w _; exact Logic.I]. split; [|split]; cbn; try exact Logic.I; [split; [reflexivity|]|split; [reflexivity|easy]].
    split; [split; reflexivity|]. split; [reflexivity|]. exists 0. split; reflexivity.
  - split; [vm_compute; reflexivity|]. split; [split; [split; [vm_compute; reflexivity|vm_compute; discriminate]|now split]|].
    eexists. split; [vm_compute; reflexivity|]. vm_compute. reflexivity.
Qed.
(** Elements of two bytes: positions count modulo 2^63. *)
Example C156_case : exists w, t_reachable w /\ t_width w 0 = 2 ^ 1 /\ t_fair w (TSlice 1 0 false (2 ^ 63 + 1) 3) /\ t_fair w (TSlice 1 0 false 1 (2 ^ 64 - 1)) /\
  1 * t_width w 0 < 2 ^ 64 /\ N.of_nat (length (t_shown w 0)) <= 2 ^ 64 - t_width w 0 /\ elems w 0 = [[2; 3]; [4; 5]; [6; 7]; [8; 9]].
Proof.
  exists (last_of (t_run [TWrap 0 two (Some 2) 4] (t_start memory))). split.
  - exists memory, [TWrap 0 two (Some 2) 4]. eexists. split; [reflexivity|]. split; [|reflexivity].
    split; [|intros a w _; exact Logic.I]. split; [|split]; cbn; try exact Logic.I; [split; [reflexivity|apply good_two]|split; [reflexivity|easy]].
  - split; [reflexivity|]. split; [split; [split; [vm_compute; reflexivity|vm_compute; discriminate]|now split]|]. split; [split; [split; [vm_compute; reflexivity|vm_compute; discriminate]|now split]|].
    split; [reflexivity|]. split; [vm_compute; discriminate|]. vm_compute. reflexivity.
Qed.
