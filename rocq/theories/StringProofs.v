From Verif Require Import Base BaseLemmas ByteIOModel ByteIOSpec ByteIOProofs Base16Proofs StringSpec StringViewModel StringViewProofs StringModel.

Definition heap_ok (alloc : heap) : Prop := forall n b, alloc n = Ok b -> size b = n.

Definition arg_text (a : arg) : list N := match a with AChar c => [c] | AText s => s end.
Definition arg_ok (a : arg) : Prop := match a with AChar c => is_byte c | AText s => sv_ok s end.

Lemma str_view_exact b n : size b = n -> str_view (mkStr b n) = b.
Proof. intros H. unfold str_view. cbn. apply ntake_all. lia. Qed.
Lemma overwrite_all {A} (b s : list A) : size b = size s -> overwrite b 0 s = s.
Proof. intros H. unfold overwrite. rewrite ntake_0, ndrop_all by lia. apply app_nil_r. Qed.
Lemma spliced_all b s : size b = size s -> spliced b 0 s = s.
Proof. intros H. rewrite <- overwrite_spliced. now apply overwrite_all. Qed.
Lemma append_make b s : size b = size s -> w_buf (append (writer_make b) s) = s.
Proof. intros H. cbn. now apply spliced_all. Qed.

Lemma append_fields w bs : w_pos (append w bs) = w_pos w + size bs /\ w_lim (append w bs) = w_lim w.
Proof. split; reflexivity. Qed.

Lemma w_write_reject w bs : winv w -> w_lim w = size (w_buf w) -> size bs < 2 ^ 64 -> w_lim w < w_pos w + size bs ->
  w_write w bs = Ret (Err E_Overflow, w).
Proof.
  intros I L B H. rewrite w_write_spec by assumption. destruct (N.leb_spec (w_pos w + size bs) (w_lim w)); [lia|].
  destruct (N.ltb_spec (size (w_buf w)) (w_pos w + size bs)); [reflexivity|lia].
Qed.

Lemma write_arg_spec host_be w a : arg_ok a -> write_arg host_be w a = w_write w (arg_text a).
Proof.
  destruct a as [c|s]; intros H; [|reflexivity]. cbn. unfold w_writeRaw. rewrite host_store_order.
  cbn in H. unfold is_byte in H. f_equal. destruct host_be; cbn; rewrite N.div_1_r, N.mod_small by lia; reflexivity.
Qed.

Lemma write_args_fits host_be args : forall w, winv w -> Forall arg_ok args -> w_pos w + size (flat_map arg_text args) <= w_lim w ->
  write_args host_be w args = Ret (true, append w (flat_map arg_text args)).
Proof.
  induction args as [|a args IH]; intros w I F H; cbn [write_args flat_map].
  - rewrite append_nil; [reflexivity|]. destruct I as (H1 & H2 & H3). lia.
  - cbn [flat_map] in H. rewrite size_app in H. inversion F; subst. rewrite write_arg_spec by assumption.
    rewrite w_write_append by (assumption || lia). cbn [bind fst snd].
    rewrite IH; [|apply append_inv; [assumption|lia]|assumption|cbn [append w_pos w_lim]; lia].
    rewrite append_app; [reflexivity|]. destruct I as (H1' & H2' & H3'). lia.
Qed.

Lemma total_size_spec args : total_size args = size (flat_map arg_text args) mod 2 ^ 16.
Proof.
  unfold total_size, u16. f_equal. induction args as [|a args IH]; [reflexivity|].
  cbn [fold_right flat_map]. rewrite IH, size_app. now destruct a.
Qed.

(** ** join *)
Definition total (l : list (list N)) : N := fold_right (fun s n => size s + n) 0 l.

Lemma size_glue by_ l : l <> [] -> size (glue by_ l) = size by_ * (size l - 1) + total l.
Proof.
  induction l as [|s l IH]; intros H; [congruence|]. destruct l as [|s2 l].
  - cbn. change (size [s]) with 1. lia.
  - change (glue by_ (s :: s2 :: l)) with (s ++ by_ ++ glue by_ (s2 :: l)).
    rewrite !size_app, IH by discriminate. cbn [total fold_right]. fold (total l). rewrite !size_cons.
    replace (size l + 1 + 1 - 1) with (size l + 1) by lia. replace (size l + 1 - 1) with (size l) by lia. lia.
Qed.

Lemma fold_total l : forall n, n < 2 ^ 16 -> fold_left (fun n s => u16 (n + size s)) l n = (n + total l) mod 2 ^ 16.
Proof.
  induction l as [|s l IH]; intros n H; cbn [fold_left total fold_right].
  - rewrite N.add_0_r. symmetry. now apply N.mod_small.
  - rewrite IH by (unfold u16; lia). fold (total l). unfold u16. lia.
Qed.

Lemma join_total by_ l : l <> [] -> size l < 2 ^ 64 ->
  fold_left (fun n s => u16 (n + size s)) l (u16 (u64 (size by_ * sub64 (size l) 1))) = size (glue by_ l) mod 2 ^ 16.
Proof.
  intros H L. rewrite fold_total by (unfold u16; lia). rewrite size_glue by assumption.
  assert (0 < size l) by (destruct l; [congruence|rewrite size_cons; lia]).
  rewrite sub64_le by lia. unfold u16, u64. generalize (size by_ * (size l - 1)). intros x. lia.
Qed.

Definition is_err {A} (r : result A) : Prop := match r with Err _ => True | Ok _ => False end.

Lemma join_loop_spec by_ l : sv_ok by_ -> forall w, winv w -> w_lim w = size (w_buf w) -> Forall sv_ok l -> size l < 2 ^ 64 ->
  if w_pos w + size (glue by_ l) <=? w_lim w
  then join_loop w by_ l (size l) = Ret (Ok tt, append w (glue by_ l))
  else exists e w', join_loop w by_ l (size l) = Ret (Err e, w').
Proof.
  intros Hby. induction l as [|s l IH]; intros w I Lm F Hl.
  - cbn [glue join_loop]. destruct I as (I1 & I2 & I3). rewrite (@size_nil N), N.add_0_r.
    destruct (N.leb_spec (w_pos w) (w_lim w)); [|lia]. rewrite append_nil by lia. reflexivity.
  - inversion F as [|? ? Hs F']; subst. pose proof I as (I1 & I2 & I3). unfold sv_ok in *.
    cbn [join_loop]. rewrite size_cons in Hl. rewrite sub64_le by (rewrite size_cons; lia).
    replace (size (s :: l) - 1) with (size l) by (rewrite size_cons; lia).
    destruct l as [|s2 l].
    + cbn [glue]. destruct (N.leb_spec (w_pos w + size s) (w_lim w)).
      * rewrite w_write_append by assumption. cbn [bind fst snd]. reflexivity.
      * rewrite w_write_reject by (assumption || lia). cbn [bind fst snd]. eauto.
    + change (glue by_ (s :: s2 :: l)) with (s ++ by_ ++ glue by_ (s2 :: l)). rewrite !size_app.
      set (l1 := s2 :: l) in *. assert (0 < size l1) by (unfold l1; rewrite size_cons; lia).
      destruct (N.ltb_spec 0 (size l1)); [|lia].
      destruct (N.leb_spec (w_pos w + size s) (w_lim w)) as [A|A].
      2:{ destruct (N.leb_spec (w_pos w + (size s + (size by_ + size (glue by_ l1)))) (w_lim w)); [lia|].
          rewrite w_write_reject by (assumption || lia). cbn [bind fst snd]. eauto. }
      rewrite w_write_append by assumption. cbn [bind fst snd].
      pose proof (append_inv w s I A) as I'.
      assert (Lm' : w_lim (append w s) = size (w_buf (append w s))) by (cbn; rewrite size_spliced; lia).
      destruct (N.leb_spec (w_pos w + size s + size by_) (w_lim w)) as [B|B].
      2:{ destruct (N.leb_spec (w_pos w + (size s + (size by_ + size (glue by_ l1)))) (w_lim w)); [lia|].
          rewrite w_write_reject; [|assumption|assumption|lia|cbn; lia]. cbn [bind fst snd]. eauto. }
      rewrite w_write_append; [|assumption|cbn; lia]. cbn [bind fst snd].
      rewrite append_app by lia.
      assert (I2' : winv (append w (s ++ by_))) by (apply append_inv; [assumption|rewrite size_app; lia]).
      assert (Lm2 : w_lim (append w (s ++ by_)) = size (w_buf (append w (s ++ by_)))) by (cbn; rewrite size_spliced; rewrite ?size_app; lia).
      specialize (IH (append w (s ++ by_)) I2' Lm2 F' ltac:(lia)).
      replace (w_pos (append w (s ++ by_)) + size (glue by_ l1)) with (w_pos w + (size s + (size by_ + size (glue by_ l1)))) in IH
        by (cbn [append w_pos]; rewrite size_app; lia).
      change (w_lim (append w (s ++ by_))) with (w_lim w) in IH.
      destruct (N.leb_spec (w_pos w + (size s + (size by_ + size (glue by_ l1)))) (w_lim w)); [|exact IH].
      rewrite IH. rewrite append_app by (rewrite size_app; lia). now rewrite <- app_assoc.
Qed.

(** writeJointArgs *)
Lemma write_joint_fits by_ l : forall w, winv w -> l <> [] -> w_pos w + size (glue by_ (map snd l)) <= w_lim w ->
  write_joint w by_ l = Ret (Ok tt, append w (glue by_ (map snd l))).
Proof.
  induction l as [|[b s] l IH]; intros w I Hn H; [congruence|]. pose proof I as (I1 & I2 & I3).
  destruct l as [|[b2 s2] l].
  - cbn in *. now apply w_write_append.
  - set (l1 := (b2, s2) :: l) in *.
    assert (G : glue by_ (map snd ((b, s) :: l1)) = s ++ by_ ++ glue by_ (map snd l1)) by reflexivity. rewrite G in *.
    rewrite !size_app in H. change (write_joint w by_ ((b, s) :: l1)) with
      (let! p := w_write w s in
      match fst p with
      | Err e => Ret (Err e, snd p)
      | Ok _ =>
          let! q := w_write (snd p) by_ in
          match (if b : bool then Ok tt else fst q) with
          | Err e => Ret (Err e, snd q)
          | Ok _ => write_joint (snd q) by_ l1
          end
      end).
    rewrite w_write_append by (assumption || lia). cbn [bind fst snd].
    rewrite w_write_append; [|apply append_inv; [assumption|lia]|cbn; lia]. cbn [bind fst snd].
    replace (if b then Ok tt else Ok tt) with (Ok tt : result unit) by now destruct b.
    rewrite append_app by lia. rewrite IH.
    + rewrite append_app by (rewrite size_app; lia). now rewrite <- app_assoc.
    + apply append_inv; [assumption|rewrite size_app; lia].
    + discriminate.
    + cbn [append w_pos w_lim]. rewrite size_app. lia.
Qed.

Lemma write_joint_overflows by_ l : sv_ok by_ -> forall w, winv w -> w_lim w = size (w_buf w) -> l <> [] -> Forall sv_ok (map snd l) ->
  Forall (fun a => fst a = false) l -> w_lim w < w_pos w + size (glue by_ (map snd l)) ->
  exists e w', write_joint w by_ l = Ret (Err e, w').
Proof.
  intros Hby. unfold sv_ok in *. induction l as [|[b s] l IH]; intros w I Lm Hn F V H; [congruence|]. pose proof I as (I1 & I2 & I3).
  inversion F as [|? ? Hs F']; subst. inversion V as [|? ? Hv V']; subst. cbn in Hs, Hv.
  destruct l as [|[b2 s2] l].
  - cbn in *. rewrite w_write_reject by (assumption || lia). eauto.
  - set (l1 := (b2, s2) :: l) in *.
    assert (G : glue by_ (map snd ((b, s) :: l1)) = s ++ by_ ++ glue by_ (map snd l1)) by reflexivity. rewrite G in *.
    rewrite !size_app in H. change (write_joint w by_ ((b, s) :: l1)) with
      (let! p := w_write w s in
      match fst p with
      | Err e => Ret (Err e, snd p)
      | Ok _ =>
          let! q := w_write (snd p) by_ in
          match (if b : bool then Ok tt else fst q) with
          | Err e => Ret (Err e, snd q)
          | Ok _ => write_joint (snd q) by_ l1
          end
      end). rewrite Hv.
    destruct (N.leb_spec (w_pos w + size s) (w_lim w)) as [A|A].
    2:{ rewrite w_write_reject by (assumption || lia). cbn [bind fst snd]. eauto. }
    rewrite w_write_append by assumption. cbn [bind fst snd].
    pose proof (append_inv w s I A) as I'.
    assert (Lm' : w_lim (append w s) = size (w_buf (append w s))) by (cbn; rewrite size_spliced; lia).
    destruct (N.leb_spec (w_pos w + size s + size by_) (w_lim w)) as [B|B].
    2:{ rewrite w_write_reject; [|assumption|assumption|lia|cbn; lia]. cbn [bind fst snd]. eauto. }
    rewrite w_write_append; [|assumption|cbn; lia]. cbn [bind fst snd]. rewrite append_app by lia. apply IH.
    + apply append_inv; [assumption|rewrite size_app; lia].
    + cbn; rewrite size_spliced; rewrite ?size_app; lia.
    + discriminate.
    + assumption.
    + assumption.
    + cbn [append w_pos w_lim]. rewrite size_app. lia.
Qed.

(** ** replace *)
Lemma size_glue_splits what by_ s ps : what <> [] -> splits what s ps ->
  Z.of_N (size (glue by_ ps)) =
    (Z.of_N (size s + size by_ * (N.of_nat (length ps) - 1)) - Z.of_N (size what * (N.of_nat (length ps) - 1)))%Z.
Proof.
  intros Hw S. pose proof (splits_nonempty _ _ _ S) as NE. pose proof (splits_glue _ _ _ S) as G.
  pose proof (size_glue what ps NE) as A. pose proof (size_glue by_ ps NE) as B. rewrite G in A.
  change (N.of_nat (length ps)) with (size ps). rewrite A, B. lia.
Qed.

Lemma replace_loop_spec fuel what by_ s to from ps : sv_ok s -> sv_ok by_ -> what <> [] ->
  forall w, winv w -> from <= to <= size s -> (forall j, from <= j < to -> ~ occurs what s j) ->
  (N.to_nat (size s - to) < fuel)%nat -> splits what (ndrop from s) ps -> w_pos w + size (glue by_ ps) <= w_lim w ->
  exists w' from', replace_loop fuel w s what by_ to from = Ret (w', from') /\ winv w' /\
    w_pos w' + size (sv_substring_from s from') <= w_lim w' /\
    append w' (sv_substring_from s from') = append w (glue by_ ps).
Proof.
  intros Hs Hby Hw. pose proof (size_pos what Hw). unfold sv_ok in *. revert to from ps.
  induction fuel as [|fuel IH]; intros to from ps w I Hft NO Hf SP H9; [lia|].
  cbn [replace_loop]. pose proof I as (I1 & I2 & I3).
  destruct (N.leb_spec (to + size what) (size s)) as [L|L].
  - destruct (N.ltb_spec to (size s)); [|lia]. cbn [andb]. rewrite u16_small by lia.
    destruct (sv_equals what (sv_substring s to (to + size what))) eqn:E.
    + apply match_bool in E; [|lia].
      replace (u16 (sub16 (to + size what) 1 + 1)) with (to + size what) by (unfold u16, sub16, sub_wrap; lia).
      assert (exists ps', splits what (ndrop (to + size what) s) ps') as (ps' & S').
      { destruct (split_loop_spec (S (length s)) what s (to + size what) (to + size what) 1) as (ps' & _ & S'); auto; try lia.
        unfold size. lia. eauto. }
      pose proof (splits_det what _ _ _ Hw SP (splits_cut what s from to ps' ltac:(lia) ltac:(lia) E NO S')) as ->.
      pose proof (splits_nonempty _ _ _ S') as NE. destruct ps' as [|p1 ps1]; [congruence|].
      set (tok := ntake (to - from) (ndrop from s)) in *.
      change (glue by_ (tok :: p1 :: ps1)) with (tok ++ by_ ++ glue by_ (p1 :: ps1)) in *.
      rewrite !size_app in H9.
      replace (sub16 to from) with (to - from) by (unfold sub16, sub_wrap; lia).
      replace (sv_substring s from (u16 (from + (to - from)))) with tok.
      2:{ rewrite substring_spec, u16_small by lia. unfold tok. f_equal. lia. }
      rewrite w_write_append by (assumption || lia). cbn [bind fst snd].
      rewrite w_write_append; [|apply append_inv; [assumption|lia]|cbn; lia]. cbn [bind fst snd].
      rewrite append_app by lia.
      destruct (IH (to + size what) (to + size what) (p1 :: ps1) (append w (tok ++ by_))) as (w' & from' & E' & I' & P' & A'); try lia.
      * apply append_inv; [assumption|rewrite size_app; lia].
      * exact S'.
      * cbn [append w_pos w_lim]. rewrite size_app. lia.
      * exists w', from'. split; [exact E'|]. split; [exact I'|]. split; [exact P'|]. rewrite A'.
        rewrite append_app by (rewrite size_app; lia). now rewrite <- app_assoc.
    + assert (NE : ~ occurs what s to) by (intros X; apply match_bool in X; [congruence|lia]).
      rewrite u16_small by lia. apply (IH (to + 1) from); auto; try lia.
      intros j Hj. destruct (N.eq_dec j to) as [->|]; [exact NE|]. apply NO. lia.
  - rewrite Bool.andb_false_r. exists w, from.
    pose proof (splits_det what _ _ _ Hw SP (splits_rest what s from to ltac:(lia) ltac:(lia) L NO)) as ->.
    cbn [glue] in *. rewrite substring_from_spec. repeat split; auto.
Qed.
