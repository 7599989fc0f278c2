(** C99 to C102: readers, writers and the memory they share. *)
From Verif Require Import Base BaseLemmas MemoryModel MemoryProofs MemViewModel ByteIOModel ByteIOSpec ByteIOProofs StreamObjModel StreamObjSpec StreamObjProofs.
Local Arguments get : simpl never.
Local Arguments upd : simpl never.

Lemma reach_inv host_be w : reachable host_be w -> binv w.
Proof. intros (os & xs & _ & R). exact (run_inv host_be os _ _ _ start_inv R). Qed.
Lemma reach_sizes host_be w : reachable host_be w -> sizes w.
Proof. intros (os & xs & K & R). exact (run_sizes host_be os _ _ _ start_inv start_sizes K R). Qed.

(** A block is in use exactly as long as a variable owns it, and one variable at most. *)
Theorem C99_one_owner : forall host_be w, reachable host_be w ->
  (forall a, in_use w a <-> exists i, owns w i a) /\ (forall i j a, owns w i a -> owns w j a -> i = j).
Proof.
  intros host_be w H. apply reach_inv in H. split; [intros a; split|].
  - apply (b_owned _ H).
  - intros (i & O). exact (b_alive _ H i a O).
  - apply (b_one _ H).
Qed.
Print Assumptions C99_one_owner.
(** When the last variable is gone nothing is left allocated. *)
Theorem C99_no_leak : forall host_be w, reachable host_be w -> (forall i, bw_objs w i = None) -> forall a, ~ in_use w a.
Proof.
  intros host_be w H E a U. apply (C99_one_owner _ _ H) in U as (i & o & F & _). now rewrite E in F.
Qed.
Print Assumptions C99_no_leak.
(** An operation is undefined only if it names the wrong variables or looks at bytes whose owner
    is gone; in particular destroying, moving and assigning never is. *)
Theorem C99_defined : forall host_be w o, reachable host_be w ->
  (b_step host_be o w <> UB <-> well_typed w o /\ memory_there w o).
Proof.
  intros host_be w o H. apply reach_inv in H. split.
  - now apply step_undefined.
  - intros (T & M). destruct (step_defined host_be o w H T M) as [E|(x & w' & E)]; rewrite E; discriminate.
Qed.
Print Assumptions C99_defined.
(** What a reader or writer owns is there. *)
Theorem C99_own_memory : forall host_be w i x, reachable host_be w ->
  bw_objs w i = Some x -> br_own (res_of x) = true -> backed w (res_of x).
Proof.
  intros host_be w i x H E O. apply reach_inv in H. pose proof (b_res _ H _ _ E) as R. unfold res_ok in R.
  destruct (br_block (res_of x)) as [a|] eqn:B; [|destruct R; congruence]. right. exists i, a. split; [exact B|]. exists x; auto.
Qed.
Print Assumptions C99_own_memory.

(** The hypotheses are met: a writer that borrows, one that owns, a reader of what was written. *)
Definition demo : list bop :=
  [BAlloc 0 [7; 7; 7; 7] true; BBorrow 1 0 true; BWrite 1 (WWrite [1; 2]); BWritten 2 1; BRead 2 (RRead 2);
   BOwn 3 0 true; BWrite 3 (WWrite [9]); BTake 4 3; BLook 4; BRead 2 RRewind; BRead 2 RGet].
Example C99_case : (let! p := b_run false demo b_start in Ret (fst p)) =
  Ret [BDone; BDone; BPut (Ok tt); BDone; BGot (Ok (OBytes [1; 2])); BDone; BPut (Ok tt); BDone; BBytes [9; 2; 7; 7];
       BGot (Ok OUnit); BGot (Ok (OByte 9))].
Proof. vm_compute. reflexivity. Qed.
Example C99_case_gone : (let! p := b_run false (demo ++ [BDrop 4; BRead 2 (RPosition 1); BRead 2 RGet]) b_start in Ret (fst p)) = UB
  /\ (let! p := b_run false (demo ++ [BDrop 4; BRead 2 (RPosition 1); BDrop 1; BDrop 2; BDrop 3; BDrop 0]) b_start in Ret (bw_heap (snd p))) = Ret [None].
Proof. vm_compute. split; reflexivity. Qed.

(** What a new reader or writer is: at position 0, its limit at its capacity, and showing the bytes
    of the memory it was made from - all of them, the slice asked for, what a writer wrote, or what
    is left before the limit. *)
Lemma sub_shown w r v : binv w -> res_ok (bw_heap w) r -> backed w r -> forall from n,
  v_addr v = Some from -> v_size v = n -> from + n <= br_len r ->
  shown w (bres_sub r v) = section (shown w r) from n /\ br_len (bres_sub r v) = size (section (shown w r) from n).
Proof.
  intros I R B from n E1 E2 L. pose proof (size_shown w r I R B) as S1. unfold bres_sub. rewrite E1, E2. split.
  - unfold shown. cbn [br_block br_off br_len]. destruct (br_block r) as [a|] eqn:Eb; [|rewrite section_spec; reflexivity].
    destruct (get (bw_heap w) a) as [bs|] eqn:G; [|rewrite section_spec; reflexivity].
    rewrite !section_spec. rewrite ndrop_ntake, ndrop_ndrop, ntake_ntake. repeat (f_equal; try lia).
  - cbn [br_len]. rewrite section_spec, size_ntake, size_ndrop. lia.
Qed.
Lemma section_clamp l from to : section l from (to - from) =
  section l (N.min from (size l)) (N.min (N.max to (N.min from (size l))) (size l) - N.min from (size l)).
Proof.
  rewrite !section_spec. destruct (N.le_gt_cases (size l) from).
  - rewrite (ndrop_all from l) by lia. rewrite (N.min_r from) by lia. rewrite (ndrop_all (size l) l) by lia. now destruct (to - from), (_ - size l).
  - rewrite (N.min_l from) by lia. destruct (N.le_gt_cases to (size l)).
    + destruct (N.le_gt_cases to from).
      * replace (to - from) with 0 by lia. now replace (N.min (N.max to from) (size l) - from) with 0 by lia.
      * now replace (N.min (N.max to from) (size l) - from) with (to - from) by lia.
    + rewrite (ntake_all (to - from)) by (rewrite size_ndrop; lia). rewrite ntake_all; [reflexivity|rewrite size_ndrop; lia].
Qed.
Lemma opened_sub w w' i wr r v from to : binv w -> res_ok (bw_heap w) r -> backed w r -> bw_heap w' = bw_heap w ->
  bw_objs w' i = Some (if wr : bool then new_writer (bres_sub r v) else new_reader (bres_sub r v)) ->
  v = view_slice (mkView (Some 0) (br_len r)) from to \/ v = mview_slice (mkView (Some 0) (br_len r)) from to ->
  opened w' i wr (section (shown w r) from (to - from)).
Proof.
  intros I R B H1 H2 V. exists (bres_sub r v). split; [destruct wr; exact H2|].
  assert (shown w' (bres_sub r v) = shown w (bres_sub r v)) as -> by (unfold shown; now rewrite H1).
  pose proof (size_shown w r I R B) as S1. rewrite section_clamp, S1.
  destruct V as [->| ->].
  - apply sub_shown; auto; unfold view_slice; cbn [v_addr v_size ptr_add]; try lia; repeat (f_equal; try lia).
  - unfold mview_slice. destruct (N.eqb_spec from to) as [<-|_].
    + replace (N.min (N.max from (N.min from (br_len r))) (br_len r) - N.min from (br_len r)) with 0 by lia.
      destruct (sub_shown w r (mkView (Some 0) 0) I R B 0 0 eq_refl eq_refl ltac:(lia)) as (X & Y).
      cbn [v_addr]. rewrite X, Y. unfold section. rewrite !firstn_O. split; reflexivity.
    + apply sub_shown; auto; cbn [v_addr v_size ptr_add]; try lia; repeat (f_equal; try lia).
Qed.
Theorem C100_opened : forall host_be w o x w', reachable host_be w -> b_step host_be o w = Ret (x, w') ->
  match o with
  | BAlloc i init ok => if ok then exists r, bw_objs w' i = Some (OMem r) /\ shown w' r = init else x = BRefused E_NOMEM /\ w' = w
  | BOwn i j wr | BBorrow i j wr => exists r, bw_objs w j = Some (OMem r) /\ (backed w r -> opened w' i wr (shown w r))
  | BSlice i j from to wr => exists r, bw_objs w j = Some (OMem r) /\ (backed w r -> opened w' i wr (section (shown w r) from (to - from)))
  | BWritten i j => exists p l r, bw_objs w j = Some (OWriter p l r) /\ (backed w r -> opened w' i false (section (shown w r) 0 p))
  | BRest i j => exists p l r, (bw_objs w j = Some (OWriter p l r) \/ bw_objs w j = Some (OReader p l r)) /\
                   (backed w r -> opened w' i false (section (shown w r) p (l - p)))
  | _ => True
  end.
Proof.
  intros host_be w o x w' H E. pose proof (reach_inv _ _ H) as I.
  assert (BL : forall r, size (blank r) = br_len r) by (intros r; unfold blank, size; rewrite repeat_length; lia).
  destruct o; trivial; cbn [b_step] in E.
  - destruct (bw_objs w i) eqn:U; [discriminate|]. destruct ok; [|now injection E as <- <-]. injection E as _ <-.
    eexists. split; [cbn; now rewrite bset_same|]. unfold shown. cbn [br_block br_off br_len bw_heap].
    rewrite get_app, Nat.eqb_refl. rewrite section_spec, ndrop_0. apply ntake_all. lia.
  - destruct (bw_objs w i) eqn:U; [discriminate|]. destruct (bw_objs w j) as [[r| |]|] eqn:V; try discriminate. injection E as _ <-.
    exists r. split; [reflexivity|]. intros B. pose proof (size_shown w r I (b_res _ I _ _ V) B) as S1. exists r.
    split; [cbn; rewrite bset_same; now destruct wr|]. split; [reflexivity|]. symmetry. exact S1.
  - destruct (bw_objs w j) as [[r| |]|] eqn:V; try discriminate. destruct (bw_objs w i) eqn:U; [discriminate|]. injection E as _ <-.
    exists r. split; [reflexivity|]. intros B. pose proof (size_shown w r I (b_res _ I _ _ V) B) as S1. exists (borrowed r).
    split; [cbn; rewrite bset_same; now destruct wr|]. split; [reflexivity|]. symmetry. exact S1.
  - destruct (bw_objs w j) as [[r| |]|] eqn:V; try discriminate. destruct (bw_objs w i) eqn:U; [discriminate|]. injection E as _ <-.
    exists r. split; [reflexivity|]. intros B.
    eapply (opened_sub w _ i wr r _ from to I (b_res _ I _ _ V) B); [reflexivity|cbn; rewrite bset_same; reflexivity|now right].
  - destruct (bw_objs w j) as [[|p l r|p l r]|] eqn:V; try discriminate. destruct (bw_objs w i) eqn:U; [discriminate|]. injection E as _ <-.
    exists p, l, r. split; [reflexivity|]. intros B. replace (section (shown w r) 0 p) with (section (shown w r) 0 (p - 0)) by (f_equal; lia).
    eapply (opened_sub w _ i false r _ 0 p I (b_res _ I _ _ V) B); [reflexivity|cbn; rewrite bset_same; reflexivity|].
    left. unfold w_viewWritten, storage_view. cbn [w_buf w_pos]. now rewrite BL.
  - destruct (bw_objs w j) as [[|p l r|p l r]|] eqn:V; try discriminate; (destruct (bw_objs w i) eqn:U; [discriminate|]); injection E as _ <-;
      exists p, l, r; (split; [auto|]); intros B;
      (eapply (opened_sub w _ i false r _ p l I (b_res _ I _ _ V) B); [reflexivity|cbn; rewrite bset_same; reflexivity|]);
      left; unfold w_viewRemaining, r_viewRemaining, storage_view; cbn [w_buf w_pos w_lim r_buf r_pos r_lim]; now rewrite BL.
Qed.
Print Assumptions C100_opened.
Example C100_opened_case : (let! p := b_run false [BAlloc 0 [1;2;3;4;5;6] true; BSlice 1 0 1 5 true; BWrite 1 (WWrite [9;8]); BWritten 2 1; BRest 3 1;
    BRead 2 (RRead 2); BRead 3 (RRead 2)] b_start in Ret (skipn 5 (fst p))) = Ret [BGot (Ok (OBytes [9;8])); BGot (Ok (OBytes [4;5]))].
Proof. vm_compute. reflexivity. Qed.

(** A reader delivers what a read cursor over the bytes it shows delivers; the memory and every
    other variable stay as they are. *)
Theorem C100_read : forall host_be w i p l r op a c', reachable host_be w ->
  bw_objs w i = Some (OReader p l r) -> within p l r -> backed w r -> rop_ok op ->
  c_step (mkCursor p l (shown w r)) op = Some (a, c') ->
  exists w', b_step host_be (BRead i op) w = Ret (BGot a, w') /\ bw_heap w' = bw_heap w /\
    bw_objs w' i = Some (OReader (c_pos c') (c_lim c') r) /\ within (c_pos c') (c_lim c') r /\
    forall k, k <> i -> bw_objs w' k = bw_objs w k.
Proof.
  intros host_be w i p l r op a c' H V (W1 & W2) B K E. pose proof (reach_inv _ _ H) as I. pose proof (reach_sizes _ _ H) as Z.
  pose proof (b_res _ I _ _ V) as R. cbn [res_of] in R.
  pose proof (size_shown w r I R B) as S1.
  assert (S2 : br_len r < 2 ^ 64).
  { unfold res_ok in R. destruct (br_block r) as [b|] eqn:Eb; [|destruct R as (-> & _); lia].
    destruct B as [->|(k & c & Ec & O)]; [lia|]. rewrite Eb in Ec. injection Ec as <-. destruct (b_alive _ I k b O) as (bs & G).
    destruct R as (_ & R). destruct (R bs G). specialize (Z b bs G). lia. }
  assert (RI : rinv (mkReader p l (shown w r))). { unfold rinv. cbn [r_pos r_lim r_buf]. rewrite S1. lia. }
  destruct (r_step_refines host_be (mkReader p l (shown w r)) op c' a RI K E) as (r' & E2 & C & RI2 & BUF).
  rewrite (read_backed host_be w i p l r op I V B), E2. eexists. split; [reflexivity|]. split; [reflexivity|].
  split; [cbn; rewrite bset_same; subst c'; reflexivity|]. split.
  - subst c'. unfold rinv in RI2. cbn in BUF. rewrite BUF, S1 in RI2. unfold within. cbn. lia.
  - intros k N1. cbn. now apply bset_other.
Qed.
Print Assumptions C100_read.

Lemma data_bytes host_be op w : wop_data op = true -> w_step host_be w op = w_write w (put_bytes host_be op).
Proof.
  destruct op; try discriminate; intros _; cbn [w_step put_bytes]; [reflexivity| |].
  - unfold w_writeInt. now rewrite swap_store.
  - unfold w_writeRaw. now rewrite host_store_order.
Qed.
Lemma nnth_section l off n i : i < n -> nnth (section l off n) i = nnth l (off + i).
Proof. intros H. rewrite section_spec, nnth_ntake by exact H. now rewrite nnth_ndrop. Qed.

(** A write that fits puts its bytes at the writer's place of the block, for everybody who looks
    at that block; every other byte, and every other variable, stays as it is. *)
Theorem C100_write : forall host_be w i p l r op, reachable host_be w ->
  bw_objs w i = Some (OWriter p l r) -> within p l r -> backed w r -> wop_data op = true ->
  p + N.of_nat (length (put_bytes host_be op)) <= l ->
  let bs := put_bytes host_be op in
  exists w', b_step host_be (BWrite i op) w = Ret (BPut (Ok tt), w') /\
    bw_objs w' i = Some (OWriter (p + N.of_nat (length bs)) l r) /\
    (forall k, k <> i -> bw_objs w' k = bw_objs w k) /\
    (forall a n, byte_at w' a n =
       if (match br_block r with Some b => Nat.eqb a b | None => false end
           && (br_off r + p <=? n) && (n <? br_off r + p + N.of_nat (length bs)))%bool
       then nth_error bs (N.to_nat (n - (br_off r + p))) else byte_at w a n).
Proof.
  intros host_be w i p l r op H V (W1 & W2) B D L bs. fold bs in L. change (N.of_nat (length bs)) with (size bs) in *.
  pose proof (reach_inv _ _ H) as I. pose proof (reach_sizes _ _ H) as Z.
  pose proof (b_res _ I _ _ V) as R. cbn [res_of] in R. pose proof (size_shown w r I R B) as S1.
  assert (S2 : br_len r < 2 ^ 64).
  { unfold res_ok in R. destruct (br_block r) as [b|] eqn:Eb; [|destruct R as (-> & _); lia].
    destruct B as [->|(k & c & Ec & O)]; [lia|]. rewrite Eb in Ec. injection Ec as <-. destruct (b_alive _ I k b O) as (x & G).
    destruct R as (_ & R). destruct (R x G). specialize (Z b x G). lia. }
  destruct (write_backed host_be w i p l r op I V B) as (o & w2 & E & Z2 & E2). rewrite D in E2.
  rewrite data_bytes in E by exact D. fold bs in E. rewrite w_write_spec in E.
  2:{ unfold winv. cbn [w_pos w_lim w_buf]. rewrite S1. lia. } 2:{ lia. }
  cbn [w_pos w_lim w_buf] in E. destruct (N.leb_spec (p + size bs) l) as [_|X]; [|lia]. injection E as <- <-.
  cbn [w_pos w_lim w_buf] in *. eexists. split; [exact E2|]. split; [cbn; now rewrite bset_same|].
  assert (O2 : bw_objs (bres_store w r (spliced (shown w r) p bs)) = bw_objs w).
  { unfold bres_store. destruct (br_block r); [|reflexivity]. destruct (get _ _); reflexivity. }
  split. { intros k N1. cbn. rewrite bset_other by exact N1. now rewrite O2. }
  intros a n. cbn [byte_at put_obj bw_heap]. unfold byte_at. cbn [bw_heap put_obj].
  unfold bres_store. unfold res_ok in R. unfold shown in Z2 |- *. destruct (br_block r) as [b|] eqn:Eb; [|reflexivity].
  destruct (get (bw_heap w) b) as [blk|] eqn:G.
  - destruct R as (Lb & R). destruct (R blk eq_refl) as (R1 & _). cbn [bw_heap]. rewrite get_upd2, (Nat.eqb_sym a b).
    destruct (Nat.eqb_spec b a) as [<-|N1]; cbn [andb]; [|reflexivity].
    pose proof (get_some _ _ _ G) as X. apply Nat.ltb_lt in X. rewrite X. rewrite G.
    rewrite <- !nnth_nth_error. rewrite nnth_overwrite by lia. rewrite Z2.
    assert (S3 : size (section blk (br_off r) (br_len r)) = br_len r).
    { rewrite section_spec, size_ntake, size_ndrop. lia. }
    destruct (N.leb_spec (br_off r) n), (N.ltb_spec n (br_off r + br_len r)); cbn [andb].
    + rewrite <- overwrite_spliced, nnth_overwrite by lia.
      destruct (N.leb_spec p (n - br_off r)), (N.leb_spec (br_off r + p) n); try lia; cbn [andb];
      destruct (N.ltb_spec (n - br_off r) (p + size bs)), (N.ltb_spec n (br_off r + p + size bs)); try lia;
      try (f_equal; lia); rewrite nnth_section by lia; f_equal; lia.
    + destruct (N.leb_spec (br_off r + p) n), (N.ltb_spec n (br_off r + p + size bs)); cbn [andb]; try reflexivity; lia.
    + destruct (N.leb_spec (br_off r + p) n); [lia|reflexivity].
    + destruct (N.leb_spec (br_off r + p) n); [lia|reflexivity].
  - (* nothing there: no byte is written *)
    assert (size bs = 0).
    { destruct B as [Y|(k & c & Ec & O)]; [lia|]. try rewrite Eb in Ec. injection Ec as <-. destruct (b_alive _ I k b O) as (x & G2). congruence. }
    destruct (N.leb_spec (br_off r + p) n), (N.ltb_spec n (br_off r + p + size bs)); cbn [andb]; rewrite ?Bool.andb_false_r; try reflexivity; lia.
Qed.
Print Assumptions C100_write.
(** A write that does not fit into the memory is refused and changes no byte and no variable. *)
Theorem C100_refused : forall host_be w i p l r op, reachable host_be w ->
  bw_objs w i = Some (OWriter p l r) -> within p l r -> backed w r -> wop_data op = true -> wop_ok op ->
  br_len r < p + N.of_nat (length (put_bytes host_be op)) ->
  exists w', b_step host_be (BWrite i op) w = Ret (BPut (Err E_Overflow), w') /\
    (forall k, bw_objs w' k = bw_objs w k) /\ (forall a n, byte_at w' a n = byte_at w a n).
Proof.
  intros host_be w i p l r op H V (W1 & W2) B D K L. set (bs := put_bytes host_be op) in *. change (N.of_nat (length bs)) with (size bs) in L.
  pose proof (reach_inv _ _ H) as I. pose proof (reach_sizes _ _ H) as Z.
  pose proof (b_res _ I _ _ V) as R. cbn [res_of] in R. pose proof (size_shown w r I R B) as S1.
  assert (S2 : br_len r < 2 ^ 64).
  { unfold res_ok in R. destruct (br_block r) as [b|] eqn:Eb; [|destruct R as (-> & _); lia].
    destruct B as [->|(k & c & Ec & O)]; [lia|]. rewrite Eb in Ec. injection Ec as <-. destruct (b_alive _ I k b O) as (x & G).
    destruct R as (_ & R). destruct (R x G). specialize (Z b x G). lia. }
  assert (S3 : size bs < 2 ^ 64).
  { unfold bs. destruct op as [| | |b0|be wd v|wd v| | |]; try discriminate; cbn [put_bytes]; [exact K| |]; unfold size; rewrite order_bytes_length; destruct wd; cbn; lia. }
  destruct (write_backed host_be w i p l r op I V B) as (o & w2 & E & Z2 & E2). rewrite D in E2.
  rewrite data_bytes in E by exact D. fold bs in E. rewrite w_write_spec in E.
  2:{ unfold winv. cbn [w_pos w_lim w_buf]. rewrite S1. lia. } 2:{ lia. }
  cbn [w_pos w_lim w_buf] in E. destruct (N.leb_spec (p + size bs) l) as [X|_]; [lia|].
  rewrite S1 in E. destruct (N.ltb_spec (br_len r) (p + size bs)) as [_|X]; [|lia]. injection E as <- <-.
  cbn [w_pos w_lim w_buf] in *. eexists. split; [exact E2|].
  assert (O2 : bw_objs (bres_store w r (shown w r)) = bw_objs w).
  { unfold bres_store. destruct (br_block r); [|reflexivity]. destruct (get _ _); reflexivity. }
  split.
  { intros k. cbn. unfold bset. destruct (Nat.eqb_spec k i) as [->|]; [now rewrite V|now rewrite O2]. }
  intros a n. unfold byte_at. cbn [bw_heap put_obj].
  unfold bres_store. unfold res_ok in R. unfold shown in Z2 |- *. destruct (br_block r) as [b|] eqn:Eb; [|reflexivity].
  destruct (get (bw_heap w) b) as [blk|] eqn:G; [|reflexivity].
  destruct R as (Lb & R). destruct (R blk eq_refl) as (R1 & _). cbn [bw_heap]. rewrite get_upd2.
  destruct (Nat.eqb_spec b a) as [<-|N1]; [|reflexivity].
  pose proof (get_some _ _ _ G) as X. apply Nat.ltb_lt in X. rewrite X, G.
  rewrite <- !nnth_nth_error. rewrite nnth_overwrite by lia. rewrite Z2.
  destruct (N.leb_spec (br_off r) n), (N.ltb_spec n (br_off r + br_len r)); cbn [andb]; try reflexivity.
  rewrite nnth_section by lia. f_equal. lia.
Qed.
Print Assumptions C100_refused.
(** Operations of one reader or writer that look at no byte change that one only. *)
Theorem C100_others : forall host_be w i op x w', reachable host_be w ->
  (b_step host_be (BRead i op) w = Ret (x, w') \/ exists op', wop_data op' = false /\ b_step host_be (BWrite i op') w = Ret (x, w')) ->
  bw_heap w' = bw_heap w /\ forall k, k <> i -> bw_objs w' k = bw_objs w k.
Proof.
  intros host_be w i op x w' H [E|(op' & D & E)]; cbn [b_step] in E.
  - destruct (bw_objs w i) as [[|p l r|]|]; try discriminate. destruct (if rop_data op then _ else _) as [buf| | | |]; try discriminate.
    cbn [bind] in E. destruct (r_step host_be _ op) as [q| | | |]; try discriminate. injection E as <- <-.
    split; [reflexivity|]. intros k N1. now apply bset_other.
  - destruct (bw_objs w i) as [[| |p l r]|]; try discriminate. rewrite D in E. cbn [bind] in E.
    destruct (w_step host_be _ op') as [q| | | |]; try discriminate. injection E as <- <-.
    split; [reflexivity|]. intros k N1. now apply bset_other.
Qed.
Print Assumptions C100_others.
Example C100_case : (let! p := b_run false
    [BAlloc 0 [0; 0; 0; 0] true; BBorrow 1 0 true; BSlice 2 0 1 3 false; BWrite 1 (WWrite [5; 6; 7]); BRead 2 (RRead 2);
     BWrite 1 (WWrite [8; 8]); BLook 0] b_start in Ret (fst p)) =
  Ret [BDone; BDone; BDone; BPut (Ok tt); BGot (Ok (OBytes [6; 7])); BPut (Err E_Overflow); BBytes [5; 6; 7; 0]].
Proof. vm_compute. reflexivity. Qed.

(** After a move the new variable does whatever the old one would have done, and the old one is
    an empty one: position, limit and capacity zero. *)
Definition same_answer (a b : outcome (bans * bworld)) : Prop :=
  match a, b with
  | Ret (x, w), Ret (y, v) => x = y /\ bw_heap w = bw_heap v
  | Throws e, Throws f => e = f
  | Terminates, Terminates | UB, UB | OutOfFuel, OutOfFuel => True
  | _, _ => False
  end.
Lemma bytes_heap w v r : bw_heap w = bw_heap v -> bres_bytes w r = bres_bytes v r.
Proof. intros E. unfold bres_bytes. now rewrite E. Qed.
Theorem C101_move : forall host_be w i j x, reachable host_be w -> bw_objs w i = None -> bw_objs w j = Some x ->
  exists w', b_step host_be (BMove i j) w = Ret (BDone, w') /\ bw_heap w' = bw_heap w /\
    bw_objs w' i = Some x /\
    (exists y, bw_objs w' j = Some y /\ same_kind x y = true /\ br_len (res_of y) = 0 /\ br_own (res_of y) = false /\
       match y with OMem _ => True | OReader p l _ | OWriter p l _ => p = 0 /\ l = 0 end) /\
    (forall k, k <> i -> k <> j -> bw_objs w' k = bw_objs w k) /\
    (forall op, same_answer (b_step host_be (BRead i op) w') (b_step host_be (BRead j op) w)) /\
    (forall op, same_answer (b_step host_be (BWrite i op) w') (b_step host_be (BWrite j op) w)) /\
    same_answer (b_step host_be (BLook i) w') (b_step host_be (BLook j) w).
Proof.
  intros host_be w i j x H U V. cbn [b_step]. rewrite U, V. eexists. split; [reflexivity|]. split; [reflexivity|].
  assert (IJ : j <> i) by congruence.
  split; [cbn; apply bset_same|]. split.
  { exists (moved_from x). cbn. rewrite bset_other, bset_same by exact IJ. destruct x; cbn; auto 6. }
  split. { intros k N1 N2. cbn. now rewrite !bset_other. }
  cbn [put_obj bw_objs]. rewrite bset_same. split; [|split].
  - intros op. destruct x as [r|p l r|p l r]; try exact Logic.I.
    rewrite (bytes_heap _ w r) by reflexivity.
    destruct (if rop_data op then _ else _) as [buf| | | |]; cbn; auto.
    destruct (r_step _ _ _); cbn; auto.
  - intros op. destruct x as [r|p l r|p l r]; try exact Logic.I.
    rewrite (bytes_heap _ w r) by reflexivity.
    destruct (if wop_data op then _ else _) as [buf| | | |]; cbn; auto.
    destruct (w_step _ _ _) as [q| | | |]; cbn; auto. split; [reflexivity|]. destruct (wop_data op); [|reflexivity].
    unfold bres_store. cbn. destruct (br_block r); [|reflexivity]. destruct (get _ _); reflexivity.
  - destruct x as [r|p l r|p l r]; try exact Logic.I.
    rewrite (bytes_heap _ w r) by reflexivity. destruct (bres_bytes w r); cbn; auto.
Qed.
Print Assumptions C101_move.
(** An empty reader or writer (default constructed or moved from) refuses every byte and stays as it is. *)
Theorem C101_empty : forall host_be w i, reachable host_be w ->
  (bw_objs w i = Some (OReader 0 0 bres_null) -> forall n, 0 < n -> n < 2 ^ 64 ->
     exists w', b_step host_be (BRead i (RRead n)) w = Ret (BGot (Err E_Overflow), w') /\
                bw_heap w' = bw_heap w /\ forall k, bw_objs w' k = bw_objs w k) /\
  (bw_objs w i = Some (OWriter 0 0 bres_null) -> forall bs, bs <> [] -> N.of_nat (length bs) < 2 ^ 64 ->
     exists w', b_step host_be (BWrite i (WWrite bs)) w = Ret (BPut (Err E_Overflow), w') /\
                bw_heap w' = bw_heap w /\ forall k, bw_objs w' k = bw_objs w k).
Proof.
  intros host_be w i H. split; intros V.
  - intros n L1 L2. assert (B : backed w bres_null) by (now left).
    assert (C : c_step (mkCursor 0 0 (shown w bres_null)) (RRead n) = Some (Err E_Overflow, mkCursor 0 0 (shown w bres_null))).
    { cbn [c_step c_lim c_pos]. destruct (N.ltb_spec 0 (0 + n)); [reflexivity|lia]. }
    destruct (C100_read host_be w i 0 0 bres_null (RRead n) _ _ H V ltac:(split; cbn; lia) B L2 C) as (w' & E & E1 & E2 & _ & E3).
    exists w'. split; [exact E|]. split; [exact E1|]. intros k. destruct (Nat.eq_dec k i) as [->|N1]; [rewrite E2, V; reflexivity|auto].
  - intros bs N0 L. destruct (write_backed host_be w i 0 0 bres_null (WWrite bs) (reach_inv _ _ H) V ltac:(now left)) as (o & w2 & E & Z2 & E2).
    cbn [w_step] in E. rewrite w_write_spec in E; [|repeat split; cbn; lia|exact L]. cbn [w_pos w_lim w_buf] in E.
    assert (P : 0 < size bs) by (destruct bs; [easy|]; rewrite size_cons; lia).
    destruct (N.leb_spec (0 + size bs) 0); [lia|]. change (size (shown w bres_null)) with 0 in E.
    destruct (N.ltb_spec 0 (0 + size bs)); [|lia]. injection E as <- <-. eexists. split; [exact E2|]. split; [reflexivity|].
    intros k. cbn. unfold bset. destruct (Nat.eqb_spec k i) as [->|]; [now rewrite V|reflexivity].
Qed.
Print Assumptions C101_empty.
(** Assignment and swap exchange the two; moveResource hands over the memory with its bytes and
    its ownership and leaves an empty writer. *)
Theorem C101_swap : forall host_be w i j x y, bw_objs w i = Some x -> bw_objs w j = Some y -> same_kind x y = true ->
  exists w', b_step host_be (BSwap i j) w = Ret (BDone, w') /\ bw_heap w' = bw_heap w /\
    bw_objs w' i = Some y /\ bw_objs w' j = Some x /\ forall k, k <> i -> k <> j -> bw_objs w' k = bw_objs w k.
Proof.
  intros host_be w i j x y V U K. cbn [b_step]. rewrite V, U, K. eexists. split; [reflexivity|]. split; [reflexivity|]. cbn.
  destruct (Nat.eq_dec i j) as [->|N1].
  - rewrite bset_same. assert (x = y) by congruence. subst. repeat split; auto. intros k N2 _. now rewrite !bset_other.
  - rewrite bset_same, bset_other, bset_same by exact N1. repeat split; auto. intros k N2 N3. now rewrite !bset_other.
Qed.
Print Assumptions C101_swap.
Theorem C101_take : forall host_be w i j p l r, reachable host_be w -> bw_objs w i = None -> bw_objs w j = Some (OWriter p l r) -> backed w r ->
  exists w', b_step host_be (BTake i j) w = Ret (BDone, w') /\
    (exists w2, b_step host_be (BLook i) w' = Ret (BBytes (shown w r), w2)) /\
    (forall a, owns w j a <-> owns w' i a) /\ bw_objs w' j = Some (OWriter 0 0 bres_null) /\
    (forall k, k <> i -> k <> j -> bw_objs w' k = bw_objs w k).
Proof.
  intros host_be w i j p l r H U V B. pose proof (reach_inv _ _ H) as I. cbn [b_step]. rewrite U, V. eexists. split; [reflexivity|].
  assert (IJ : j <> i) by congruence. cbn. rewrite bset_same.
  split. { rewrite (bytes_heap _ w r) by reflexivity. rewrite (bytes_defined w r I (b_res _ I _ _ V) B). cbn. eauto. }
  split.
  { intros a. unfold owns. cbn. rewrite bset_same. split; intros (o & E & O).
    - rewrite V in E. injection E as <-. eauto.
    - injection E as <-. eauto. }
  split; [now rewrite bset_other, bset_same|]. intros k N1 N2. now rewrite !bset_other.
Qed.
Print Assumptions C101_take.
Example C101_case : (let! p := b_run false
    [BAlloc 0 [0; 0] true; BOwn 1 0 true; BWrite 1 (WWrite [5]); BMove 2 1; BWrite 1 (WWrite [9]); BWrite 2 (WWrite [6]); BTake 3 2; BLook 3; BLook 0] b_start in Ret (fst p)) =
  Ret [BDone; BDone; BPut (Ok tt); BDone; BPut (Err E_Overflow); BPut (Ok tt); BDone; BBytes [5; 6]; BBytes []].
Proof. vm_compute. reflexivity. Qed.

(** ** A writer and a reader on the same memory are a queue *)
Lemma store_shown w r buf : binv w -> res_ok (bw_heap w) r -> backed w r -> size buf = br_len r ->
  shown (bres_store w r buf) r = buf.
Proof.
  intros I R B Z. unfold shown, bres_store. unfold res_ok in R. destruct (br_block r) as [a|] eqn:E.
  - destruct R as (La & R). destruct (get (bw_heap w) a) as [bs|] eqn:G.
    + cbn. rewrite get_upd2, Nat.eqb_refl. apply Nat.ltb_lt in La. rewrite La. destruct (R bs eq_refl) as (R1 & _).
      rewrite section_spec. unfold overwrite. rewrite ndrop_app.
      rewrite size_ntake. replace (br_off r - N.min (br_off r) (size bs)) with 0 by lia.
      rewrite (ndrop_all (br_off r) (ntake (br_off r) bs)) by (rewrite size_ntake; lia). rewrite ndrop_0. cbn [app].
      rewrite <- Z. apply ntake_app_exact.
    + rewrite G. destruct B as [B|(i & b & F & O)]; [rewrite B in Z; symmetry; now apply size_0_nil|].
      rewrite E in F. injection F as <-. destruct (b_alive _ I i a O) as (b2 & G2). congruence.
  - destruct R as (R & _). rewrite R in Z. symmetry. now apply size_0_nil.
Qed.
Lemma shown_same w r r' : same_memory r r' -> shown w r = shown w r'.
Proof. intros (A & B & C). unfold shown. now rewrite A, B, C. Qed.
Lemma run_snoc host_be os : forall o w xs w1 x w2, b_run host_be os w = Ret (xs, w1) -> b_step host_be o w1 = Ret (x, w2) ->
  b_run host_be (os ++ [o]) w = Ret (xs ++ [x], w2).
Proof.
  induction os as [|o' os IH]; intros o w xs w1 x w2 E F; cbn [b_run app] in *.
  - injection E as <- <-. rewrite F. reflexivity.
  - destruct (b_step host_be o' w) as [[y w3]| | | |]; try discriminate. cbn [bind fst snd] in *.
    destruct (b_run host_be os w3) as [[ys w4]| | | |] eqn:G; try discriminate. cbn [bind fst snd] in E. injection E as <- <-.
    rewrite (IH _ _ _ _ _ _ G F). reflexivity.
Qed.
Lemma reach_step host_be o w x w' : reachable host_be w -> bop_ok o -> b_step host_be o w = Ret (x, w') -> reachable host_be w'.
Proof.
  intros (os & xs & K & R) O E. exists (os ++ [o]), (xs ++ [x]). split; [apply Forall_app; auto|]. eapply run_snoc; eauto.
Qed.
Lemma owns_same w w' : (forall k, option_map res_of (bw_objs w' k) = option_map res_of (bw_objs w k)) ->
  forall k a, owns w k a -> owns w' k a.
Proof.
  intros E k a (o & F & O). specialize (E k). rewrite F in E. destruct (bw_objs w' k) as [o'|] eqn:G; [|discriminate].
  cbn in E. injection E as E. exists o'. rewrite E. auto.
Qed.
Lemma backed_same w w' r : (forall k, option_map res_of (bw_objs w' k) = option_map res_of (bw_objs w k)) -> backed w r -> backed w' r.
Proof. intros E [B|(i & a & F & O)]; [now left|]. right. exists i, a. split; [exact F|]. exact (owns_same w w' E i a O). Qed.

Lemma nth_error_ext_N (l m : list N) : (forall n, nth_error l (N.to_nat n) = nth_error m (N.to_nat n)) -> l = m.
Proof.
  intros E. assert (E2 : forall k, nth_error l k = nth_error m k) by (intros k; rewrite <- (Nat2N.id k); apply E). clear E.
  revert m E2. induction l as [|x l IH]; intros [|y m] E2; auto; try (specialize (E2 0%nat); discriminate).
  f_equal; [specialize (E2 0%nat); cbn in E2; congruence|]. apply IH. intros k. exact (E2 (S k)).
Qed.

Record pipe (host_be : bool) (w : bworld) (i j : nat) (p p' : N) (r r' : bres) (q : queue) : Prop := {
  p_reach : reachable host_be w;
  p_wr : bw_objs w i = Some (OWriter p (br_len r) r);
  p_rd : bw_objs w j = Some (OReader p' (br_len r) r');
  p_mem : same_memory r r'; p_back : backed w r; p_ord : p' <= p /\ p <= br_len r;
  p_bytes : q_bytes q = section (shown w r) p' (p - p'); p_room : q_room q = br_len r - p }.

Lemma section_cut l a n m : m <= n -> section l a n = section l a m ++ section l (a + m) (n - m).
Proof.
  intros H. rewrite !section_spec. replace n with (m + (n - m)) at 1 by lia.
  rewrite <- (ntake_ndrop m (ntake (m + (n - m)) (ndrop a l))). rewrite ntake_ntake. f_equal; [f_equal; lia|].
  rewrite ndrop_ntake, ndrop_ndrop. f_equal; lia.
Qed.
Lemma section_size l a n : a + n <= size l -> size (section l a n) = n.
Proof. intros H. rewrite section_spec, size_ntake, size_ndrop. lia. Qed.
Lemma section_spliced_before l p bs a n : a + n <= p -> p + size bs <= size l -> section (spliced l p bs) a n = section l a n.
Proof.
  intros H L. apply nnth_ext; [rewrite !section_size by (rewrite ?size_spliced; lia); reflexivity|].
  intros i Hi. rewrite section_size in Hi by (rewrite size_spliced; lia). rewrite !nnth_section by lia.
  rewrite <- overwrite_spliced, nnth_overwrite by lia. destruct (N.leb_spec p (a + i)); [lia|reflexivity].
Qed.
Lemma section_spliced_at l p bs : p + size bs <= size l -> section (spliced l p bs) p (size bs) = bs.
Proof.
  intros L. apply nnth_ext; [rewrite section_size by (rewrite ?size_spliced; lia); reflexivity|].
  intros i Hi. rewrite section_size in Hi by (rewrite size_spliced; lia). rewrite nnth_section by lia.
  rewrite <- overwrite_spliced, nnth_overwrite by lia.
  destruct (N.leb_spec p (p + i)), (N.ltb_spec (p + i) (p + size bs)); try lia. cbn [andb]. f_equal. lia.
Qed.
Lemma pipe_reads host_be w i j p p' r r' q n : pipe host_be w i j p p' r r' q -> n <= size (q_bytes q) ->
  p' + n <= br_len r /\ section (shown w r') p' n = firstn (N.to_nat n) (q_bytes q) /\
  section (shown w r) (p' + n) (p - (p' + n)) = skipn (N.to_nat n) (q_bytes q) /\ p' + n <= p.
Proof.
  intros [H V U M B (O1 & O2) Q R] L. pose proof (reach_inv _ _ H) as I.
  pose proof (size_shown w r I (b_res _ I _ _ V) B) as Z. rewrite Q, section_size in L by lia.
  rewrite <- (shown_same w r r' M), Q. rewrite (section_cut (shown w r) p' (p - p') n) by lia.
  assert (X : length (section (shown w r) p' n) = N.to_nat n).
  { pose proof (section_size (shown w r) p' n ltac:(lia)) as Y. unfold size in Y. lia. }
  split; [lia|]. split; [rewrite firstn_app, X, Nat.sub_diag, firstn_O, app_nil_r; symmetry; apply firstn_all2; lia|].
  split; [|lia]. rewrite skipn_app, X, Nat.sub_diag, skipn_O, (skipn_all2 (section _ _ _)) by lia. cbn [app]. f_equal. lia.
Qed.
Lemma pipe_step host_be w i j p p' r r' q o x q' : pipe host_be w i j p p' r r' q -> pop_ok o -> q_step q o = Some (x, q') ->
  exists w' p2 p2', b_step host_be (pipe_op i j o) w = Ret (x, w') /\ pipe host_be w' i j p2 p2' r r' q'.
Proof.
  intros P K E. pose proof P as [H V U M B (O1 & O2) Q R]. pose proof (reach_inv _ _ H) as I.
  pose proof (size_shown w r I (b_res _ I _ _ V) B) as Z. assert (IJ : i <> j) by congruence.
  assert (BR : backed w r') by (destruct M as (M1 & M2 & M3); unfold backed in *; now rewrite <- M1, <- M3).
  assert (READ : forall op n a, rop_ok op -> n <= size (q_bytes q) ->
    c_step (mkCursor p' (br_len r) (shown w r')) op = Some (a, mkCursor (p' + n) (br_len r) (shown w r')) ->
    exists w' p2 p2', b_step host_be (BRead j op) w = Ret (BGot a, w') /\
      pipe host_be w' i j p2 p2' r r' (mkQueue (skipn (N.to_nat n) (q_bytes q)) (q_room q))).
  { intros op n a K2 L C. destruct (pipe_reads _ _ _ _ _ _ _ _ _ n P L) as (L1 & F1 & F2 & L2).
    destruct (C100_read host_be w j p' (br_len r) r' op a _ H U ltac:(destruct M as (_ & _ & M3); split; lia) BR K2 C) as (w' & S1 & HP & SJ & _ & SO).
    exists w', p, (p' + n). split; [exact S1|]. split; cbn [q_bytes q_room]; auto.
    - exact (reach_step host_be (BRead j op) w _ w' H Logic.I S1).
    - rewrite SO by exact IJ. exact V.
    - apply (backed_same w); [|exact B]. intros k. destruct (Nat.eq_dec k j) as [->|N1]; [rewrite SJ, U; reflexivity|now rewrite SO].
    - rewrite <- F2. f_equal. unfold shown. now rewrite HP. }
  destruct o as [f|n|be wd]; cbn [q_step] in E.
  - (* put *)
    change (N.of_nat (length (as_bytes f))) with (size (as_bytes f)) in E. cbn [pipe_op].
    assert (D : wop_data (put_field f) = true) by (destruct f; reflexivity).
    assert (PB : put_bytes host_be (put_field f) = as_bytes f) by (destruct f; reflexivity).
    assert (FS : size (as_bytes f) < 2 ^ 64).
    { destruct f as [be wd v|bs]; [|exact K]. cbn [as_bytes]. unfold size. rewrite order_bytes_length. destruct wd; cbn; lia. }
    destruct (N.ltb_spec (q_room q) (size (as_bytes f))) as [L|L]; injection E as <- <-.
    + destruct (C100_refused host_be w i p (br_len r) r (put_field f) H V ltac:(split; lia) B D) as (w' & S1 & SO & SB).
      { destruct f; [exact Logic.I|exact K]. }
      { rewrite PB. change (N.of_nat (length (as_bytes f))) with (size (as_bytes f)). lia. }
      exists w', p, p'. split; [exact S1|]. split; auto.
      * exact (reach_step host_be (BWrite i (put_field f)) w _ w' H Logic.I S1).
      * now rewrite SO.
      * now rewrite SO.
      * apply (backed_same w); [|exact B]. intros k. now rewrite SO.
      * rewrite Q. f_equal. unfold shown. destruct (br_block r) as [a|]; [|reflexivity].
        assert (T : forall n, byte_at w a n = byte_at w' a n) by (intros; now rewrite SB). unfold byte_at in T.
        pose proof (reach_inv _ _ (reach_step host_be (BWrite i (put_field f)) w _ w' H Logic.I S1)) as I'.
        destruct (get (bw_heap w) a) as [b1|] eqn:G1, (get (bw_heap w') a) as [b2|] eqn:G2; [| | |reflexivity].
        -- replace b2 with b1; [reflexivity|]. apply nth_error_ext_N. intros n. apply T.
        -- destruct (b_owned _ I a) as (k & O3); [now exists b1|]. apply (owns_same w w') in O3; [|intros z; now rewrite SO].
           destruct (b_alive _ I' k a O3) as (b2 & G3). congruence.
        -- destruct (b_owned _ I' a) as (k & O3); [now exists b2|]. apply (owns_same w' w) in O3; [|intros z; now rewrite SO].
           destruct (b_alive _ I k a O3) as (b3 & G3). congruence.
    + destruct (write_backed host_be w i p (br_len r) r (put_field f) I V B) as (o & w2 & E1 & Z2 & E2). rewrite D in E2.
      rewrite data_bytes in E1 by exact D. rewrite PB, w_write_spec in E1; [|unfold winv; cbn [w_pos w_lim w_buf]|exact FS].
      2:{ rewrite Z. split; [lia|]. split; [lia|]. pose proof (reach_sizes _ _ H) as SZ. pose proof (b_res _ I _ _ V) as RR. cbn [res_of] in RR.
          unfold res_ok in RR. destruct (br_block r) as [b|] eqn:Eb; [|destruct RR as (-> & _); lia].
          destruct B as [->|(k & c & Ec & OO)]; [lia|]. rewrite Eb in Ec. injection Ec as <-. destruct (b_alive _ I k b OO) as (y & G).
          destruct RR as (_ & RR). destruct (RR y G). specialize (SZ b y G). lia. }
      cbn [w_pos w_lim w_buf] in E1. destruct (N.leb_spec (p + size (as_bytes f)) (br_len r)) as [L1|L1]; [|lia].
      injection E1 as <- <-. cbn [w_pos w_lim w_buf] in *.
      assert (OO : bw_objs (bres_store w r (spliced (shown w r) p (as_bytes f))) = bw_objs w).
      { unfold bres_store. destruct (br_block r); [|reflexivity]. destruct (get _ _); reflexivity. }
      eexists _, (p + size (as_bytes f)), p'. split; [exact E2|]. split; cbn [q_bytes q_room].
      * exact (reach_step host_be (BWrite i (put_field f)) w _ _ H Logic.I E2).
      * cbn. apply bset_same.
      * cbn. rewrite bset_other by congruence. now rewrite OO.
      * exact M.
      * apply (backed_same w); [|exact B]. intros k. cbn. unfold bset. destruct (Nat.eqb_spec k i) as [->|]; [now rewrite V|now rewrite OO].
      * lia.
      * change (shown (put_obj (bres_store w r (spliced (shown w r) p (as_bytes f))) i
                  (Some (OWriter (p + size (as_bytes f)) (br_len r) r))) r)
          with (shown (bres_store w r (spliced (shown w r) p (as_bytes f))) r).
        rewrite (store_shown w r _ I (b_res _ I _ _ V) B Z2).
        rewrite (section_cut _ p' _ (p - p')) by lia. rewrite section_spliced_before by lia. rewrite Q. f_equal.
        replace (p' + (p - p')) with p by lia. replace (p + size (as_bytes f) - p' - (p - p')) with (size (as_bytes f)) by lia.
        symmetry. apply section_spliced_at. lia.
      * change (N.of_nat (length (as_bytes f))) with (size (as_bytes f)). lia.
  - change (N.of_nat (length (q_bytes q))) with (size (q_bytes q)) in E.
    destruct (N.ltb_spec (size (q_bytes q)) n) as [L|L]; [discriminate|]. injection E as <- <-. cbn [pipe_op].
    destruct (pipe_reads _ _ _ _ _ _ _ _ _ n P L) as (L1 & F1 & F2 & L2). rewrite <- F1.
    apply READ; [cbn; pose proof (reach_sizes _ _ H) as SZ; cbn|exact L|].
    { pose proof (b_res _ I _ _ V) as RR. cbn [res_of] in RR.
      unfold res_ok in RR. destruct (br_block r) as [b|] eqn:Eb; [|destruct RR as (RR & _); lia].
      destruct B as [B|(k & c & Ec & OO)]; [lia|]. rewrite Eb in Ec. injection Ec as <-. destruct (b_alive _ I k b OO) as (y & G).
      destruct RR as (_ & RR). destruct (RR y G). specialize (SZ b y G). lia. }
    cbn [c_step c_lim c_pos c_bytes]. destruct (N.ltb_spec (br_len r) (p' + n)); [lia|reflexivity].
  - destruct (Nat.ltb_spec (length (q_bytes q)) (wbytes wd)) as [L|L]; [discriminate|]. injection E as <- <-. cbn [pipe_op].
    assert (L' : N.of_nat (wbytes wd) <= size (q_bytes q)) by (unfold size; lia).
    destruct (pipe_reads _ _ _ _ _ _ _ _ _ _ P L') as (L1 & F1 & F2 & L2). rewrite Nat2N.id in F1.
    destruct (READ (RReadInt be wd) (N.of_nat (wbytes wd)) (Ok (OInt (order_value be (firstn (wbytes wd) (q_bytes q))))) Logic.I L') as (w' & p2 & p2' & S1 & S2).
    { cbn [c_step c_lim c_pos c_bytes]. destruct (N.ltb_spec (br_len r) (p' + N.of_nat (wbytes wd))); [lia|]. now rewrite F1. }
    rewrite Nat2N.id in S2. eauto 6.
Qed.

(** A writer and a reader over the same memory, in whatever order they are used: as long as the
    reader asks only for what has been written, the two behave as a queue: every write that fits
    is taken, and the reader gets the bytes written, in order, each once. *)
Theorem C102_queue : forall host_be os w i j p p' r r' xs q', reachable host_be w ->
  bw_objs w i = Some (OWriter p (br_len r) r) -> bw_objs w j = Some (OReader p' (br_len r) r') ->
  same_memory r r' -> backed w r -> p' <= p -> p <= br_len r -> Forall pop_ok os ->
  q_run (mkQueue (section (shown w r) p' (p - p')) (br_len r - p)) os = Some (xs, q') ->
  exists w', b_run host_be (map (pipe_op i j) os) w = Ret (xs, w').
Proof.
  intros host_be os w i j p p' r r' xs q' H V U M B O1 O2 K E.
  assert (P : pipe host_be w i j p p' r r' (mkQueue (section (shown w r) p' (p - p')) (br_len r - p))) by (split; auto).
  clear H V U M B O1 O2. revert P E. generalize (mkQueue (section (shown w r) p' (p - p')) (br_len r - p)). intros q.
  revert w p p' q xs. induction K as [|o os K1 _ IH]; intros w p p' q xs P E; cbn [q_run map b_run] in *.
  - injection E as <- <-. eauto.
  - destruct (q_step q o) as [[x q1]|] eqn:E1; [|discriminate]. destruct (q_run q1 os) as [[ys q2]|] eqn:E2; [|discriminate].
    injection E as <- <-. destruct (pipe_step _ _ _ _ _ _ _ _ _ _ _ _ P K1 E1) as (w1 & p2 & p2' & S1 & P1). rewrite S1. cbn [bind fst snd].
    destruct (IH w1 p2 p2' q1 ys P1 E2) as (w' & R). rewrite R. cbn. eauto.
Qed.
Print Assumptions C102_queue.
(** In the queue what comes out is what went in. *)
Fixpoint accepted (os : list pop) (xs : list bans) : list N :=
  match os, xs with
  | Put f :: os', BPut (Ok _) :: xs' => as_bytes f ++ accepted os' xs'
  | _ :: os', _ :: xs' => accepted os' xs'
  | _, _ => []
  end.
Fixpoint delivered (xs : list bans) : list N :=
  match xs with BGot (Ok (OBytes bs)) :: xs' => bs ++ delivered xs' | _ :: xs' => delivered xs' | [] => [] end.
Definition only_bytes (o : pop) : Prop := match o with GetInt _ _ => False | _ => True end.
Theorem C102_in_order : forall os q xs q', Forall only_bytes os -> q_run q os = Some (xs, q') ->
  q_bytes q ++ accepted os xs = delivered xs ++ q_bytes q'.
Proof.
  induction os as [|o os IH]; intros q xs q' K E; cbn [q_run] in E.
  - injection E as <- <-. apply app_nil_r.
  - inversion K as [|? ? K1 K2]; subst. destruct (q_step q o) as [[x q1]|] eqn:E1; [|discriminate].
    destruct (q_run q1 os) as [[ys q2]|] eqn:E2; [|discriminate]. injection E as <- <-. specialize (IH _ _ _ K2 E2).
    destruct o as [f|n|be wd]; cbn [q_step] in E1.
    + destruct (_ <? _); injection E1 as <- <-; cbn [accepted delivered]; [exact IH|]. cbn [q_bytes] in IH. now rewrite app_assoc.
    + destruct (_ <? _); [discriminate|]. injection E1 as <- <-. cbn [accepted delivered q_bytes] in *.
      rewrite <- (firstn_skipn (N.to_nat n) (q_bytes q)) at 1. rewrite <- !app_assoc. now rewrite IH.
    + contradiction.
Qed.
Print Assumptions C102_in_order.
(** The hypotheses are met. *)
Example C102_case : exists w, b_run false [BAlloc 0 (repeat 0 8) true; BBorrow 1 0 true; BBorrow 2 0 false] b_start = Ret ([BDone; BDone; BDone], w) /\ bw_objs w 1%nat = Some (OWriter 0 8 (mkBRes (Some 0%nat) 0 8 false)) /\ bw_objs w 2%nat = Some (OReader 0 8 (mkBRes (Some 0%nat) 0 8 false)) /\ backed w (mkBRes (Some 0%nat) 0 8 false).
Proof.
  eexists. split; [cbn; reflexivity|]. split; [reflexivity|]. split; [reflexivity|]. right. exists 0%nat, 0%nat. split; [reflexivity|].
  eexists. cbn. repeat split.
Qed.
Example C102_case_queue : q_run (mkQueue [] 8) [Put (FInt true W16 258); Put (FBytes [7; 8; 9]); Get 1; GetInt false W16; Put (FBytes [1; 1; 1; 1]); Get 2] =
  Some ([BPut (Ok tt); BPut (Ok tt); BGot (Ok (OBytes [1])); BGot (Ok (OInt 1794)); BPut (Err E_Overflow); BGot (Ok (OBytes [8; 9]))], mkQueue [] 3).
Proof. vm_compute. reflexivity. Qed.
