(** C133: the strings that are built, for all lengths. *)
From Verif Require Import Base BaseLemmas ByteIOModel ByteIOSpec ByteIOProofs Base16Proofs StringSpec StringViewModel StringViewProofs StringModel StringProofs StringProps BuiltSpec.
Ltac Zify.zify_post_hook ::= Z.div_mod_to_equations.

(** The result of building: an error of the heap is passed on (or thrown), an overflow is
    an error, otherwise the string has the size of the block and shows the text poured
    into it, followed by what the block held before. *)
Definition built (got : result (list N)) (script : list (otherwise * list N)) (r : outcome (result str)) : Prop :=
  match got with
  | Err e => r = Ret (Err e)
  | Ok block =>
      match poured (size block) script with
      | None => r = Ret (Err E_Overflow)
      | Some t => exists st, r = Ret (Ok st) /\ st_size st = size block /\ str_view st = t ++ skipn (length t) block
      end
  end.

(** The invariant of a writer over a whole block. *)
Definition fresh (w : writer) : Prop := winv w /\ w_lim w = size (w_buf w).
Definition left_ (w : writer) : N := w_lim w - w_pos w.
Lemma fresh_append w t : fresh w -> size t <= left_ w -> fresh (append w t) /\ left_ (append w t) = left_ w - size t.
Proof.
  intros (I & L) H. pose proof I as (H1 & H2 & H3). unfold left_ in *. split; [split|].
  - apply append_inv; [assumption|lia].
  - cbn [append writer_make w_buf w_pos w_lim]. rewrite size_spliced; lia.
  - cbn. lia.
Qed.
Lemma write_fits w t : fresh w -> size t <= left_ w -> w_write w t = Ret (Ok tt, append w t).
Proof. intros (I & L) H. pose proof I as (H1 & H2 & H3). unfold left_ in *. apply w_write_append; [assumption|lia]. Qed.
Lemma write_not w t : fresh w -> size t < 2 ^ 64 -> left_ w < size t -> w_write w t = Ret (Err E_Overflow, w).
Proof. intros (I & L) B H. pose proof I as (H1 & H2 & H3). unfold left_ in *. apply w_write_reject; auto. lia. Qed.
Lemma fresh_make b : size b < 2 ^ 64 -> fresh (writer_make b) /\ left_ (writer_make b) = size b.
Proof. intros H. split; [split; [apply writer_make_inv; lia|reflexivity]|]. unfold left_. cbn. lia. Qed.
Lemma append_append w a b : fresh w -> size (a ++ b) <= left_ w -> append (append w a) b = append w (a ++ b).
Proof. intros (I & L) H. pose proof I as (H1 & H2 & H3). unfold left_ in *. rewrite size_app in H. apply append_app; lia. Qed.
Lemma append_none w : fresh w -> append w [] = w.
Proof. intros (I & L). pose proof I as (H1 & H2 & H3). apply append_nil. lia. Qed.
Lemma poured_size script : forall cap t, poured cap script = Some t -> size t <= cap.
Proof.
  induction script as [|(k & x) r IH]; intros cap t; cbn [poured].
  - intros E. injection E as <-. rewrite (@size_nil N). lia.
  - fold (size x). destruct (N.leb_spec (size x) cap).
    + destruct (poured (cap - size x) r) as [u|] eqn:E; [|discriminate]. cbn. intros X. injection X as <-. apply IH in E. rewrite size_app. lia.
    + destruct k; [discriminate|apply IH|]. intros E. injection E as <-. rewrite (@size_nil N). lia.
Qed.
Lemma view_poured b t : size t <= size b -> size b < 2 ^ 64 -> str_view (mkStr (w_buf (append (writer_make b) t)) (size b)) = t ++ skipn (length t) b.
Proof.
  intros H B. rewrite str_view_exact.
  - cbn [append writer_make w_buf w_pos]. rewrite <- overwrite_spliced. unfold overwrite. rewrite ntake_0. cbn [app]. rewrite ndrop_skipn. do 2 f_equal. unfold size. lia.
  - cbn [append writer_make w_buf w_pos w_lim]. rewrite size_spliced; lia.
Qed.

(** *** makeString(a, b, ...) *)
Lemma args_poured host_be args : forall w, fresh w -> Forall arg_ok args ->
  exists ok t, poured (left_ w) (map (fun a => (Stop, arg_text a)) args) = Some t /\ write_args host_be w args = Ret (ok, append w t).
Proof.
  induction args as [|a args IH]; intros w I F; cbn [map poured write_args].
  - exists true, []. split; [reflexivity|]. now rewrite append_none.
  - inversion F as [|? ? Fa F']; subst. rewrite write_arg_spec by assumption. fold (size (arg_text a)).
    destruct (N.leb_spec (size (arg_text a)) (left_ w)) as [L|L].
    + rewrite write_fits by assumption. cbn [bind fst snd]. destruct (fresh_append w _ I L) as (I' & L').
      destruct (IH _ I' F') as (ok & t & P & E). rewrite L' in P. rewrite P. exists ok, (arg_text a ++ t). split; [reflexivity|].
      rewrite E. apply poured_size in P. rewrite append_append; [reflexivity|assumption|rewrite size_app; lia].
    + rewrite write_not; [|assumption| |assumption].
      * cbn [bind fst snd]. exists false, []. split; [reflexivity|]. now rewrite append_none.
      * destruct a; cbn in Fa |- *; [reflexivity|unfold sv_ok in Fa; lia].
Qed.
Theorem C133_concat : forall host_be alloc args, heap_ok alloc -> Forall arg_ok args ->
  let script := map (fun a => (Stop, arg_text a)) args in
  built (alloc (size (whole script) mod 2 ^ 16)) script (str_concat host_be alloc args).
Proof.
  intros host_be alloc args H F script. unfold str_concat. rewrite total_size_spec.
  replace (flat_map arg_text args) with (whole script) by (unfold whole, script; rewrite flat_map_concat_map, map_map; reflexivity).
  unfold built. destruct (alloc _) as [b|e] eqn:E; [|reflexivity]. apply H in E.
  destruct (fresh_make b) as (I & L); [lia|]. destruct (args_poured host_be args _ I F) as (ok & t & P & W).
  rewrite L in P. fold script in P. rewrite P, W. cbn [bind snd]. eexists. split; [reflexivity|]. split; [now cbn|].
  rewrite <- E. apply view_poured; [now apply poured_size in P|lia].
Qed.
Print Assumptions C133_concat.

(** *** makeStringJoin(by, a, b, ...) and of an array *)
Lemma separated_cons sep lax s x l : separated sep ((lax, s) :: x :: l) = (Fail, s) :: ((if lax : bool then Skip else Fail), sep) :: separated sep (x :: l).
Proof. reflexivity. Qed.
Lemma joint_poured by_ l : sv_ok by_ -> forall w, fresh w -> Forall sv_ok (map snd l) ->
  match poured (left_ w) (separated by_ l) with
  | Some t => write_joint w by_ l = Ret (Ok tt, append w t)
  | None => exists w', write_joint w by_ l = Ret (Err E_Overflow, w')
  end.
Proof.
  intros Hb. unfold sv_ok in *. induction l as [|(lax & s) l IH]; intros w I F.
  - cbn [separated poured write_joint]. now rewrite append_none.
  - inversion F as [|? ? Fs F']; subst. cbn [snd] in Fs. destruct l as [|x l].
    + cbn [separated poured write_joint]. fold (size s). destruct (N.leb_spec (size s) (left_ w)).
      * cbn [option_map]. rewrite app_nil_r. now apply write_fits.
      * rewrite write_not by (assumption || lia). eauto.
    + rewrite separated_cons. set (l1 := x :: l) in *.
      change (write_joint w by_ ((lax, s) :: l1)) with
      (let! p := w_write w s in
      match fst p with
      | Err e => Ret (Err e, snd p)
      | Ok _ =>
          let! q := w_write (snd p) by_ in
          match (if lax : bool then Ok tt else fst q) with
          | Err e => Ret (Err e, snd q)
          | Ok _ => write_joint (snd q) by_ l1
          end
      end).
      cbn [poured]. fold (size s) (size by_). destruct (N.leb_spec (size s) (left_ w)) as [L|L].
      2:{ rewrite write_not by (assumption || lia). cbn [bind fst snd]. eauto. }
      rewrite write_fits by assumption. cbn [bind fst snd]. destruct (fresh_append w s I L) as (I' & L'). rewrite <- L'.
      destruct (N.leb_spec (size by_) (left_ (append w s))) as [B|B].
      * rewrite write_fits by assumption. cbn [bind fst snd]. replace (if lax then Ok tt else Ok tt) with (Ok tt : result unit) by now destruct lax.
        destruct (fresh_append _ by_ I' B) as (I2 & L2). rewrite <- L2. specialize (IH _ I2 F').
        destruct (poured (left_ (append (append w s) by_)) (separated by_ l1)) as [t|] eqn:P; cbn [option_map]; [|exact IH].
        rewrite IH. apply poured_size in P. rewrite L2 in P. do 2 f_equal.
        rewrite append_append by (assumption || (rewrite size_app; lia)). rewrite append_append by (assumption || (rewrite !size_app; lia)). now rewrite app_assoc.
      * rewrite write_not by (assumption || lia). cbn [bind fst snd]. destruct lax; cbn [option_map]; [|eauto].
        specialize (IH _ I' F'). destruct (poured (left_ (append w s)) (separated by_ l1)) as [t|] eqn:P; cbn [option_map]; [|exact IH].
        rewrite IH. apply poured_size in P. rewrite append_append by (assumption || (rewrite size_app; lia)). reflexivity.
Qed.
Lemma whole_separated by_ l : whole (separated by_ l) = glue by_ (map snd l).
Proof.
  induction l as [|(lax & s) l IH]; [reflexivity|]. destruct l as [|x l]; [unfold whole; cbn; apply app_nil_r|].
  rewrite separated_cons. unfold whole in *. cbn [map concat snd]. rewrite IH. reflexivity.
Qed.
Theorem C133_join_args : forall alloc by_ l, heap_ok alloc -> sv_ok by_ -> Forall sv_ok (map snd l) -> (2 <= length l)%nat ->
  built (alloc (size (glue by_ (map snd l)) mod 2 ^ 16)) (separated by_ l) (str_join_args alloc by_ l).
Proof.
  intros alloc by_ l H Hb F L. unfold str_join_args. destruct l as [|(x & s) [|(x2 & s2) l]]; [cbn in L; lia|cbn in L; lia|].
  set (l0 := (x, s) :: (x2, s2) :: l) in *. clear L.
  replace (u16 (size by_ * (size l0 - 1) + u16 (fold_right (fun a n => size (snd a) + n) 0 l0))) with (size (glue by_ (map snd l0)) mod 2 ^ 16).
  2:{ rewrite size_glue by discriminate. unfold u16. assert (size (map snd l0) = size l0) as -> by (unfold size; now rewrite map_length).
      assert (total (map snd l0) = fold_right (fun a n => size (snd a) + n) 0 l0) as ->; [|generalize (size by_ * (size l0 - 1)); intros; lia].
      generalize l0. clear. intros m. induction m as [|a m IH]; [reflexivity|]. cbn [map total fold_right]. fold (total (map snd m)). now rewrite IH. }
  unfold built. destruct (alloc _) as [b|e] eqn:E; [|reflexivity]. apply H in E.
  destruct (fresh_make b) as (I & Lb); [lia|]. pose proof (joint_poured by_ l0 Hb _ I F) as P. rewrite Lb in P.
  destruct (poured (size b) (separated by_ l0)) as [t|] eqn:Q.
  - rewrite P. cbn [bind fst snd]. eexists. split; [reflexivity|]. split; [now cbn|]. rewrite <- E. apply view_poured; [now apply poured_size in Q|lia].
  - destruct P as (w' & ->). reflexivity.
Qed.
Print Assumptions C133_join_args.

Lemma loop_poured by_ l : sv_ok by_ -> forall w, fresh w -> Forall sv_ok l -> size l < 2 ^ 64 ->
  match poured (left_ w) (separated by_ (map (pair false) l)) with
  | Some t => join_loop w by_ l (size l) = Ret (Ok tt, append w t)
  | None => exists w', join_loop w by_ l (size l) = Ret (Err E_Overflow, w')
  end.
Proof.
  intros Hb. unfold sv_ok in *. induction l as [|s l IH]; intros w I F S.
  - cbn [map separated poured join_loop]. now rewrite append_none.
  - inversion F as [|? ? Fs F']; subst. rewrite size_cons in S. cbn [join_loop]. rewrite sub64_le by (rewrite size_cons; lia).
    replace (size (s :: l) - 1) with (size l) by (rewrite size_cons; lia). destruct l as [|x l].
    + cbn [map separated poured]. fold (size s). destruct (N.leb_spec (size s) (left_ w)).
      * cbn [option_map]. rewrite app_nil_r, write_fits by assumption. reflexivity.
      * rewrite write_not by (assumption || lia). cbn [bind fst snd]. eauto.
    + change (map (pair false) (s :: x :: l)) with ((false, s) :: map (pair false) (x :: l)).
      cbn [map]. rewrite separated_cons. change ((false, x) :: map (pair false) l) with (map (pair false) (x :: l)). set (l1 := x :: l) in *.
      assert (0 < size l1) by (unfold l1; rewrite size_cons; lia). destruct (N.ltb_spec 0 (size l1)); [|lia].
      cbn [poured]. fold (size s) (size by_). destruct (N.leb_spec (size s) (left_ w)) as [L|L].
      2:{ rewrite write_not by (assumption || lia). cbn [bind fst snd]. eauto. }
      rewrite write_fits by assumption. cbn [bind fst snd]. destruct (fresh_append w s I L) as (I' & L'). rewrite <- L'.
      destruct (N.leb_spec (size by_) (left_ (append w s))) as [B|B].
      * rewrite write_fits by assumption. cbn [bind fst snd].
        destruct (fresh_append _ by_ I' B) as (I2 & L2). rewrite <- L2. specialize (IH _ I2 F' ltac:(lia)).
        destruct (poured (left_ (append (append w s) by_)) (separated by_ (map (pair false) l1))) as [t|] eqn:P; cbn [option_map]; [|exact IH].
        rewrite IH. apply poured_size in P. rewrite L2 in P. do 2 f_equal.
        rewrite append_append by (assumption || (rewrite size_app; lia)). rewrite append_append by (assumption || (rewrite !size_app; lia)). now rewrite app_assoc.
      * rewrite write_not by (assumption || lia). cbn [bind fst snd option_map]. eauto.
Qed.
(** Of an array; the length computed for the empty one is minus that of the separator. *)
Theorem C133_join : forall alloc by_ l, heap_ok alloc -> sv_ok by_ -> Forall sv_ok l -> size l < 2 ^ 64 ->
  built (alloc (match l with [] => (2 ^ 16 - size by_) mod 2 ^ 16 | _ => size (glue by_ l) mod 2 ^ 16 end))
        (separated by_ (map (pair false) l)) (str_join alloc by_ l).
Proof.
  intros alloc by_ l H Hb F L. unfold str_join, sv_ok in *.
  replace (fold_left _ l _) with (match l with [] => (2 ^ 16 - size by_) mod 2 ^ 16 | _ => size (glue by_ l) mod 2 ^ 16 end).
  2:{ destruct l as [|s l]; [|rewrite <- join_total by (assumption || discriminate); reflexivity].
      cbn [fold_left]. rewrite (@size_nil (list N)). change (sub64 0 1) with (2 ^ 64 - 1). unfold u16, u64. lia. }
  unfold built. destruct (alloc _) as [b|e] eqn:E; [|reflexivity]. apply H in E.
  assert (size b < 2 ^ 16) as Sb by (destruct l; lia).
  destruct (fresh_make b) as (I & Lb); [lia|]. pose proof (loop_poured by_ l Hb _ I F L) as P. rewrite Lb in P.
  destruct (poured (size b) (separated by_ (map (pair false) l))) as [t|] eqn:Q.
  - rewrite P. cbn [bind fst snd]. eexists. split; [reflexivity|]. split; [now cbn|]. rewrite <- E. apply view_poured; [now apply poured_size in Q|lia].
  - destruct P as (w' & ->). reflexivity.
Qed.
Print Assumptions C133_join.

(** *** makeStringReplace *)
Lemma replaced_cons by_ p q ps : replaced by_ (p :: q :: ps) = (Skip, p) :: (Skip, by_) :: replaced by_ (q :: ps).
Proof. reflexivity. Qed.
Lemma whole_replaced by_ ps : whole (replaced by_ ps) = glue by_ ps.
Proof.
  induction ps as [|p ps IH]; [reflexivity|]. destruct ps as [|q ps]; [unfold whole; cbn; apply app_nil_r|].
  rewrite replaced_cons. unfold whole in *. cbn [map concat snd]. rewrite IH. reflexivity.
Qed.
(** One unchecked write. *)
Lemma write_skip w t r : fresh w -> size t < 2 ^ 64 -> exists o w',
  w_write w t = Ret (o, w') /\ fresh w' /\
  poured (left_ w) ((Skip, t) :: r) = option_map (app (if size t <=? left_ w then t else [])) (poured (left_ w') r) /\
  w' = append w (if size t <=? left_ w then t else []) /\ left_ w' = left_ w - size (if size t <=? left_ w then t else []) /\
  size (if size t <=? left_ w then t else []) <= left_ w.
Proof.
  intros I B. cbn [poured]. fold (size t). destruct (N.leb_spec (size t) (left_ w)) as [L|L].
  - destruct (fresh_append w t I L) as (I' & L'). rewrite write_fits by assumption. eexists _, _. split; [reflexivity|].
    split; [exact I'|]. rewrite L'. auto.
  - rewrite write_not by assumption. eexists _, _. split; [reflexivity|]. split; [exact I|]. split; [destruct (poured (left_ w) r); reflexivity|].
    rewrite append_none by assumption. rewrite (@size_nil N). split; [reflexivity|]. split; lia.
Qed.
Lemma replace_poured fuel what by_ s to from ps : sv_ok s -> sv_ok by_ -> what <> [] ->
  forall w, fresh w -> from <= to <= size s -> (forall j, from <= j < to -> ~ occurs what s j) ->
  (N.to_nat (size s - to) < fuel)%nat -> splits what (ndrop from s) ps ->
  exists w' from' t, replace_loop fuel w s what by_ to from = Ret (w', from') /\ fresh w' /\
    w' = append w t /\ left_ w' = left_ w - size t /\ size t <= left_ w /\ size (sv_substring_from s from') < 2 ^ 16 /\
    poured (left_ w) (replaced by_ ps) = option_map (app t) (poured (left_ w') [(Fail, sv_substring_from s from')]).
Proof.
  intros Hs Hby Hw. pose proof (size_pos what Hw). unfold sv_ok in *. revert to from ps.
  induction fuel as [|fuel IH]; intros to from ps w I Hft NO Hf SP; [lia|].
  cbn [replace_loop].
  destruct (N.leb_spec (to + size what) (size s)) as [L|L].
  - destruct (N.ltb_spec to (size s)); [|lia]. cbn [andb]. rewrite u16_small by lia.
    destruct (sv_equals what (sv_substring s to (to + size what))) eqn:E.
    + apply match_bool in E; [|lia].
      replace (u16 (sub16 (to + size what) 1 + 1)) with (to + size what) by (unfold u16, sub16, sub_wrap; lia).
      assert (exists ps', splits what (ndrop (to + size what) s) ps') as (ps' & S').
      { destruct (split_loop_spec (S (length s)) what s (to + size what) (to + size what) 1) as (ps' & _ & S'); auto; try lia.
        unfold size. lia. eauto. }
      pose proof (splits_det what _ _ _ Hw SP (splits_cut what s from to ps' ltac:(lia) ltac:(lia) E NO S')) as ->.
      pose proof (splits_nonempty _ _ _ S') as NE. destruct ps' as [|p1 ps1]; [congruence|].
      set (tok := ntake (to - from) (ndrop from s)) in *. rewrite replaced_cons.
      replace (sub16 to from) with (to - from) by (unfold sub16, sub_wrap; lia).
      replace (sv_substring s from (u16 (from + (to - from)))) with tok.
      2:{ rewrite substring_spec, u16_small by lia. unfold tok. f_equal. lia. }
      assert (size tok < 2 ^ 64) as St.
      { assert (size tok <= size s); [|lia]. unfold tok. rewrite ntake_firstn, ndrop_skipn. unfold size. rewrite firstn_length, skipn_length. lia. }
      destruct (write_skip w tok ((Skip, by_) :: replaced by_ (p1 :: ps1)) I St) as (o1 & w1 & E1 & I1 & P1 & A1 & L1 & T1).
      destruct (write_skip w1 by_ (replaced by_ (p1 :: ps1)) I1 ltac:(lia)) as (o2 & w2 & E2 & I2 & P2 & A2 & L2 & T2).
      rewrite E1. cbn [bind snd]. rewrite E2. cbn [bind snd].
      destruct (IH (to + size what) (to + size what) (p1 :: ps1) w2 I2) as (w' & from' & t & E' & I' & A' & L' & T' & Z' & P'); try lia; [exact S'|].
      set (x := if size tok <=? left_ w then tok else []) in *. set (y := if size by_ <=? left_ w1 then by_ else []) in *.
      exists w', from', (x ++ y ++ t). split; [exact E'|]. split; [exact I'|]. rewrite !size_app.
      split.
      { rewrite A', A2. rewrite (append_append w1) by (assumption || (rewrite ?size_app; lia)). rewrite A1. apply append_append; [assumption|rewrite ?size_app; lia]. }
      split; [lia|]. split; [lia|]. split; [exact Z'|]. rewrite P1, P2, P'. destruct (poured _ [(Fail, _)]); cbn [option_map]; [|reflexivity]. now rewrite !app_assoc.
    + assert (NE : ~ occurs what s to) by (intros X; apply match_bool in X; [congruence|lia]).
      rewrite u16_small by lia. apply (IH (to + 1) from); auto; try lia.
      intros j Hj. destruct (N.eq_dec j to) as [->|]; [exact NE|]. apply NO. lia.
  - rewrite Bool.andb_false_r. exists w, from, [].
    pose proof (splits_det what _ _ _ Hw SP (splits_rest what s from to ltac:(lia) ltac:(lia) L NO)) as ->.
    rewrite substring_from_spec, append_none by assumption. rewrite (@size_nil N). split; [reflexivity|]. split; [exact I|]. split; [reflexivity|].
    split; [lia|]. split; [lia|]. split.
    + rewrite ndrop_skipn. unfold size in *. rewrite skipn_length. lia.
    + cbn [replaced poured]. destruct (_ <=? left_ w); reflexivity.
Qed.
(** Replacing a string: the pieces between the greedy occurrences of [what] with [by_]
    between them; a length from 2^31 on is not computed (undefined behaviour), a failed
    allocation raises an exception. *)
Theorem C133_replace : forall fuel alloc s what by_, heap_ok alloc -> sv_ok s -> sv_ok by_ -> what <> [] -> (length s < fuel)%nat ->
  exists ps, splits what s ps /\
    if 2 ^ 31 <=? size s + size by_ * (size ps - 1) then str_replace fuel alloc s what by_ = UB
    else match alloc (size (glue by_ ps) mod 2 ^ 16) with
         | Err _ => str_replace fuel alloc s what by_ = Throws InvalidState
         | got => built got (replaced by_ ps) (str_replace fuel alloc s what by_)
         end.
Proof.
  intros fuel alloc s what by_ H Hs Hb Hw Hf. unfold str_replace.
  destruct (count_loop_spec fuel what s 0 0 0) as (ps & E & S); auto; try lia. { unfold size; lia. }
  rewrite E. rewrite ndrop_0 in S. exists ps. split; [exact S|]. cbn [bind]. rewrite N.add_0_l.
  pose proof (splits_length _ _ _ S) as LE. pose proof (size_pos what Hw). unfold sv_ok in *.
  rewrite (u16_small (N.of_nat (length ps) - 1)) by nia.
  pose proof (size_glue_splits what by_ s ps Hw S) as G. change (size ps) with (N.of_nat (length ps)). set (k := N.of_nat (length ps) - 1) in *.
  destruct (N.leb_spec (2 ^ 31) (size s + size by_ * k)); [reflexivity|].
  rewrite <- G. replace (Z.to_N (Z.of_N (size (glue by_ ps)) mod 2 ^ 16)) with (size (glue by_ ps) mod 2 ^ 16) by lia.
  destruct (alloc (size (glue by_ ps) mod 2 ^ 16)) as [b|e] eqn:A; [|reflexivity]. apply H in A.
  destruct (fresh_make b) as (I & Lb); [lia|].
  destruct (replace_poured fuel what by_ s 0 0 ps Hs Hb Hw (writer_make b) I) as (w' & from' & t & R & I' & A' & L' & T' & Z' & P'); try lia.
  - unfold size; lia.
  - now rewrite ndrop_0.
  - rewrite R. cbn [bind fst snd]. unfold built. rewrite Lb in *. rewrite P'. cbn [poured]. set (rest := sv_substring_from s from') in *. fold (size rest).
    destruct (N.leb_spec (size rest) (left_ w')) as [L|L]; cbn [option_map].
    + rewrite write_fits by assumption. cbn [bind fst snd]. eexists. split; [reflexivity|]. split; [now cbn|]. rewrite app_nil_r, <- A.
      rewrite A', append_append; [|assumption|rewrite size_app, Lb; lia]. apply view_poured; [rewrite size_app; lia|lia].
    + rewrite write_not by (assumption || lia). reflexivity.
Qed.
Print Assumptions C133_replace.

(** A script that fits is poured completely; a string that is built shows the whole text
    only if this has fewer than 65536 characters. *)
Theorem C133_complete : forall script cap, size (whole script) <= cap -> poured cap script = Some (whole script).
Proof.
  intros script. induction script as [|(k & t) r IH]; intros cap; cbn [poured]; [reflexivity|].
  change (whole ((k, t) :: r)) with (t ++ whole r). rewrite size_app. intros L. fold (size t).
  destruct (N.leb_spec (size t) cap); [|lia]. rewrite IH by lia. reflexivity.
Qed.
Print Assumptions C133_complete.
Theorem C133_right_iff : forall alloc script r, heap_ok alloc -> built (alloc (size (whole script) mod 2 ^ 16)) script r ->
  (size (whole script) < 2 ^ 16 ->
     match alloc (size (whole script)) with Err e => r = Ret (Err e) | Ok _ => exists st, r = Ret (Ok st) /\ str_view st = whole script end) /\
  (2 ^ 16 <= size (whole script) -> forall st, r = Ret (Ok st) -> str_view st <> whole script).
Proof.
  intros alloc script r H B. unfold built in B. split.
  - intros L. rewrite N.mod_small in B by exact L. destruct (alloc (size (whole script))) as [b|e] eqn:E; [|exact B]. apply H in E.
    rewrite C133_complete in B by lia. destruct B as (st & -> & _ & V). exists st. split; [reflexivity|]. rewrite V.
    rewrite skipn_all2 by (unfold size in E; lia). apply app_nil_r.
  - intros L st -> V. destruct (alloc _) as [b|e] eqn:E; [|discriminate B]. apply H in E.
    destruct (poured (size b) script) as [t|] eqn:P; [|discriminate B]. destruct B as (st' & X & _ & V'). injection X as <-.
    apply poured_size in P. rewrite V' in V. assert (size (t ++ skipn (length t) b) = size b) as Q.
    { rewrite size_app. unfold size in *. rewrite skipn_length. lia. }
    rewrite V in Q. lia.
Qed.
Print Assumptions C133_right_iff.

(** Five bytes, a separator that does not fit after a String: it is left out. *)
Example C133_ok :
  poured 5 [(Stop, [1; 2]); (Stop, [3; 4; 5; 6]); (Stop, [7])] = Some [1; 2] /\
  poured 5 (separated [9; 9; 9; 9] [(true, [1; 2]); (true, [3]); (false, [])]) = Some [1; 2; 3] /\
  poured 5 (separated [9; 9; 9; 9] [(false, [1; 2]); (true, [3]); (false, [])]) = None /\
  poured 3 (replaced [8; 8; 8; 8] [[1]; [2]; [3]]) = Some [1; 2; 3] /\
  splits [97] [1; 97; 2; 97; 3] [[1]; [2]; [3]].
Proof.
  repeat split.
  apply (splits_first [97] [1] [2; 97; 3] [[2]; [3]]).
  - intros i Hi (p & r & E & L). cbn in Hi. destruct p; [discriminate E|]. cbn in L. lia.
  - apply (splits_first [97] [2] [3] [[3]]).
    + intros i Hi (p & r & E & L). cbn in Hi. destruct p; [discriminate E|]. cbn in L. lia.
    + apply splits_last. intros i (p & r & E & L). destruct p as [|a [|b p]]; discriminate E.
Qed.
