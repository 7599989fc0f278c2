From Verif Require Import Base BaseLemmas ByteIOModel ByteIOSpec ByteIOProofs Base16Proofs StringSpec StringViewModel StringViewProofs StringModel StringProofs.

(** In all statements [alloc] is any heap whose successful allocations have the size
    asked for ([heap_ok]); an allocation error is passed on. *)

(** A heap that always succeeds, used in the examples. *)
Definition junk_heap (n : N) : result (list N) := Ok (repeat 204 (N.to_nat n)).
Lemma junk_heap_ok : heap_ok junk_heap.
Proof. intros n b H. injection H as <-. unfold size. rewrite repeat_length. lia. Qed.

(** ** C26 *)
Theorem C26_copy : forall alloc s, heap_ok alloc -> sv_ok s ->
  match alloc (size s) with
  | Err e => str_make alloc s = Ret (Err e)
  | Ok _ => exists st, str_make alloc s = Ret (Ok st) /\ str_view st = s /\ st_size st = size s
  end.
Proof.
  intros alloc s H Hs. unfold str_make. destruct (alloc (size s)) as [b|e] eqn:E; [|reflexivity].
  apply H in E. destruct (N.ltb_spec (size b) (size s)); [lia|]. eexists. split; [reflexivity|].
  rewrite overwrite_all by assumption. split; [|reflexivity]. now apply str_view_exact.
Qed.
Print Assumptions C26_copy.

(** makeString(a, b, ...) with characters and strings *)
Theorem C26_concat : forall host_be alloc args, heap_ok alloc -> Forall arg_ok args ->
  let text := concat (map arg_text args) in
  size text < 2 ^ 16 ->
  match alloc (size text) with
  | Err e => str_concat host_be alloc args = Ret (Err e)
  | Ok _ => exists st, str_concat host_be alloc args = Ret (Ok st) /\ str_view st = text /\ st_size st = size text
  end.
Proof.
  intros host_be alloc args H F text L. unfold str_concat. rewrite total_size_spec.
  replace (flat_map arg_text args) with text by (symmetry; apply flat_map_concat_map). rewrite N.mod_small by exact L.
  destruct (alloc (size text)) as [b|e] eqn:E; [|reflexivity]. apply H in E.
  rewrite write_args_fits; auto.
  - cbn [bind]. eexists. split; [reflexivity|]. rewrite flat_map_concat_map. fold text. unfold snd. rewrite append_make by exact E.
    split; [|reflexivity]. now apply str_view_exact.
  - apply writer_make_inv. lia.
  - rewrite flat_map_concat_map. fold text. cbn. lia.
Qed.
Print Assumptions C26_concat.

(** makeStringJoin over an array; the empty array is excluded (see C27) *)
Theorem C26_join_partial : forall alloc by_ l, heap_ok alloc -> l <> [] -> sv_ok by_ -> Forall sv_ok l -> size l < 2 ^ 64 ->
  size (glue by_ l) < 2 ^ 16 ->
  match alloc (size (glue by_ l)) with
  | Err e => str_join alloc by_ l = Ret (Err e)
  | Ok _ => exists st, str_join alloc by_ l = Ret (Ok st) /\ str_view st = glue by_ l /\ st_size st = size (glue by_ l)
  end.
Proof.
  intros alloc by_ l H Hn Hb F Hl L. unfold str_join. rewrite join_total by assumption. rewrite N.mod_small by exact L.
  destruct (alloc (size (glue by_ l))) as [b|e] eqn:E; [|reflexivity]. apply H in E.
  pose proof (join_loop_spec by_ l Hb (writer_make b) ltac:(apply writer_make_inv; lia) eq_refl F Hl) as J.
  change (w_pos (writer_make b)) with 0 in J. change (w_lim (writer_make b)) with (size b) in J.
  destruct (N.leb_spec (0 + size (glue by_ l)) (size b)); [|lia]. rewrite J. cbn [bind fst snd]. eexists. split; [reflexivity|].
  rewrite append_make by exact E. split; [|reflexivity]. now apply str_view_exact.
Qed.
Print Assumptions C26_join_partial.

(** makeStringJoin(by, a, b, ...) *)
Theorem C26_join_args : forall alloc by_ l, heap_ok alloc -> sv_ok by_ -> Forall sv_ok (map snd l) ->
  let text := glue by_ (map snd l) in
  size text < 2 ^ 16 ->
  match match l with [] => Ok [] | _ => alloc (size text) end with
  | Err e => str_join_args alloc by_ l = Ret (Err e)
  | Ok _ => exists st, str_join_args alloc by_ l = Ret (Ok st) /\ str_view st = text /\ st_size st = size text
  end.
Proof.
  intros alloc by_ l H Hb F text L. destruct l as [|[b1 s1] [|[b2 s2] l]].
  - exists (mkStr [] 0). repeat split.
  - cbn [str_join_args]. inversion F; subst. exact (C26_copy alloc s1 H ltac:(assumption)).
  - set (args := (b1, s1) :: (b2, s2) :: l) in *.
    assert (T : u16 (size by_ * (size args - 1) + u16 (fold_right (fun a n => size (snd a) + n) 0 args)) = size text).
    { unfold text. rewrite size_glue by discriminate. unfold text in L. rewrite size_glue in L by discriminate.
      assert (fold_right (fun a n => size (snd a) + n) 0 args = total (map snd args)) as ->.
      { clear. generalize args. clear. intros args. induction args as [|a r IH]; [reflexivity|]. cbn [fold_right map total]. fold (total (map snd r)). now rewrite IH. }
      replace (size (map snd args)) with (size args) in * by (unfold size; now rewrite map_length).
      revert L. generalize (size by_ * (size args - 1)). intros x L.
      rewrite (u16_small (total (map snd args))) by lia. now apply u16_small. }
    change (str_join_args alloc by_ args) with (match alloc (u16 (size by_ * (size args - 1) + u16 (fold_right (fun a n => size (snd a) + n) 0 args))) with
      | Err e => Ret (Err e)
      | Ok block =>
          let! p := write_joint (writer_make block) by_ args in
          match fst p with
          | Err e => Ret (Err e)
          | Ok _ => Ret (Ok (mkStr (w_buf (snd p)) (u16 (size by_ * (size args - 1) + u16 (fold_right (fun a n => size (snd a) + n) 0 args)))))
          end
      end). rewrite T. destruct (alloc (size text)) as [b|e] eqn:E; [|reflexivity]. apply H in E.
    rewrite write_joint_fits; [|apply writer_make_inv; lia|discriminate|fold text; change (w_pos (writer_make b)) with 0; change (w_lim (writer_make b)) with (size b); lia].
    cbn [bind fst snd]. eexists. split; [reflexivity|]. fold text. rewrite append_make by exact E. split; [|reflexivity]. now apply str_view_exact.
Qed.
Print Assumptions C26_join_args.

Example C26_ok :
  (exists st, str_concat false junk_heap [AText [97]; AChar 45; AText [98;99]] = Ret (Ok st) /\ str_view st = [97;45;98;99]) /\
  (exists st, str_join junk_heap [44;32] [[97];[];[98]] = Ret (Ok st) /\ str_view st = [97;44;32;44;32;98]) /\
  (exists st, str_join_args junk_heap [44] [(true, [97]); (false, [98])] = Ret (Ok st) /\ str_view st = [97;44;98]).
Proof. repeat split; eexists; (split; [vm_compute; reflexivity|vm_compute; reflexivity]). Qed.

(** ** C27 *)
(** Joining a non-empty array whose total does not fit is always an error, and so is
    joining StringView arguments. *)
Theorem C27_join_error_partial : forall alloc by_ l, heap_ok alloc -> l <> [] -> sv_ok by_ -> Forall sv_ok l -> size l < 2 ^ 64 ->
  2 ^ 16 <= size (glue by_ l) -> exists e, str_join alloc by_ l = Ret (Err e).
Proof.
  intros alloc by_ l H Hn Hb F Hl L. unfold str_join. rewrite join_total by assumption.
  destruct (alloc (size (glue by_ l) mod 2 ^ 16)) as [b|e] eqn:E; [|eauto]. apply H in E.
  assert (size b < 2 ^ 16) by (rewrite E; apply N.mod_lt; discriminate).
  pose proof (join_loop_spec by_ l Hb (writer_make b) ltac:(apply writer_make_inv; lia) eq_refl F Hl) as J.
  change (w_pos (writer_make b)) with 0 in J. change (w_lim (writer_make b)) with (size b) in J.
  destruct (N.leb_spec (0 + size (glue by_ l)) (size b)); [lia|]. destruct J as (e & w' & ->). cbn [bind fst snd]. eauto.
Qed.
Print Assumptions C27_join_error_partial.
Theorem C27_join_views_error_partial : forall alloc by_ l, heap_ok alloc -> (2 <= length l)%nat -> sv_ok by_ ->
  Forall sv_ok (map snd l) -> Forall (fun a => fst a = false) l ->
  2 ^ 16 <= size (glue by_ (map snd l)) -> exists e, str_join_args alloc by_ l = Ret (Err e).
Proof.
  intros alloc by_ l H Hn Hb F V L. destruct l as [|[b1 s1] [|[b2 s2] l]]; try (cbn in Hn; lia).
  set (args := (b1, s1) :: (b2, s2) :: l) in *.
  set (tot := u16 (size by_ * (size args - 1) + u16 (fold_right (fun a n => size (snd a) + n) 0 args))).
  assert (TB : tot < 2 ^ 16) by (unfold tot, u16; apply N.mod_lt; discriminate).
  change (str_join_args alloc by_ args) with (match alloc tot with
      | Err e => Ret (Err e)
      | Ok block =>
          let! p := write_joint (writer_make block) by_ args in
          match fst p with
          | Err e => Ret (Err e)
          | Ok _ => Ret (Ok (mkStr (w_buf (snd p)) tot))
          end
      end).
  destruct (alloc tot) as [b|e] eqn:E; [|eauto]. apply H in E.
  destruct (write_joint_overflows by_ args Hb (writer_make b)) as (e & w' & ->); auto.
  - apply writer_make_inv. lia.
  - discriminate.
  - change (w_pos (writer_make b)) with 0. change (w_lim (writer_make b)) with (size b). lia.
  - cbn [bind fst snd]. eauto.
Qed.
Print Assumptions C27_join_views_error_partial.
Example C27_ok : 2 ^ 16 <= size (glue [44] [repeat 97 (N.to_nat 40000); repeat 98 (N.to_nat 30000)]).
Proof. cbn [glue]. rewrite !size_app. unfold size. rewrite !repeat_length. cbn [length]. lia. Qed.

(** Joining an empty array with a separator returns a string of heap garbage. *)
Theorem C27_empty_join_refuted : forall by_ block, sv_ok by_ -> by_ <> [] -> size block = 2 ^ 16 - size by_ ->
  exists st, str_join (fun n => if n =? size block then Ok block else Err E_NOMEM) by_ [] = Ret (Ok st) /\
    str_view st = block /\ str_view st <> [].
Proof.
  intros by_ block Hb Hn E. pose proof (size_pos by_ Hn). unfold sv_ok in Hb. unfold str_join. cbn [fold_left].
  replace (u16 (u64 (size by_ * sub64 (size (@nil (list N))) 1))) with (size block).
  2:{ change (sub64 (size (@nil (list N))) 1) with (2 ^ 64 - 1). rewrite E. unfold u16, u64. lia. }
  rewrite N.eqb_refl. cbn [join_loop bind fst snd]. eexists. split; [reflexivity|].
  assert (V : str_view (mkStr (w_buf (writer_make block)) (size block)) = block) by now apply str_view_exact.
  rewrite V. split; [reflexivity|]. intros ->. rewrite (@size_nil N) in E. lia.
Qed.
Print Assumptions C27_empty_join_refuted.
(** Concatenating two strings of 32768 characters silently gives the empty string. *)
Theorem C27_concat_refuted : forall host_be c, is_byte c ->
  let s := repeat c (N.to_nat 32768) in
  exists st, str_concat host_be junk_heap [AText s; AText s] = Ret (Ok st) /\ str_view st = [].
Proof.
  intros host_be c Hc s. assert (S : size s = 32768) by (unfold s, size; rewrite repeat_length; lia). clearbody s.
  unfold str_concat. rewrite total_size_spec. cbn [flat_map arg_text]. rewrite app_nil_r, size_app, S.
  change ((32768 + 32768) mod 2 ^ 16) with 0. change (junk_heap 0) with (Ok [] : result (list N)). cbn [write_args write_arg].
  rewrite w_write_reject; [|apply writer_make_inv; reflexivity|reflexivity|lia|cbn; lia]. cbn [bind fst snd].
  eexists. split; reflexivity.
Qed.
Print Assumptions C27_concat_refuted.
(** Joining three empty String objects with a separator of 32768 characters silently
    gives the empty string: separator writes after a String are not checked. *)
Theorem C27_join_strings_refuted : forall c,
  let s := repeat c (N.to_nat 32768) in
  size (glue s [[]; []; []]) = 65536 /\
  exists st, str_join_args junk_heap s [(true, []); (true, []); (true, [])] = Ret (Ok st) /\ str_view st = [].
Proof.
  intros c s. assert (S : size s = 32768) by (unfold s, size; rewrite repeat_length; lia). clearbody s. split.
  - cbn [glue]. rewrite !size_app, !S, (@size_nil N). reflexivity.
  - cbn [str_join_args fold_right snd]. rewrite S.
    change (u16 (32768 * (size [(true, @nil N); (true, []); (true, [])] - 1) + u16 (size (@nil N) + (size (@nil N) + (size (@nil N) + 0))))) with 0.
    change (junk_heap 0) with (Ok [] : result (list N)). cbn [write_joint].
    assert (W : w_write (writer_make []) s = Ret (Err E_Overflow, writer_make [])).
    { apply w_write_reject; [apply writer_make_inv; reflexivity|reflexivity|lia|cbn; lia]. }
    change (w_write (writer_make []) []) with (Ret (Ok tt, writer_make []) : outcome (result unit * writer)).
    cbn [bind fst snd]. rewrite W. cbn [bind fst snd].
    change (w_write (writer_make []) []) with (Ret (Ok tt, writer_make []) : outcome (result unit * writer)).
    cbn [bind fst snd]. rewrite W. cbn [bind fst snd]. eexists. split; reflexivity.
Qed.
Print Assumptions C27_join_strings_refuted.
(** Replacing both characters of "aa" by 32768 characters silently gives the empty string. *)
Theorem C27_replace_refuted : forall c,
  let s := repeat c (N.to_nat 32768) in
  exists st, str_replace 5 junk_heap [97;97] [97] s = Ret (Ok st) /\ str_view st = [].
Proof.
  intros c s. assert (S : size s = 32768) by (unfold s, size; rewrite repeat_length; lia). clearbody s.
  unfold str_replace. change (sv_count_loop 5 [97] [97;97] 0 0) with (Ret 2 : outcome N). cbn [bind]. rewrite S.
  change (2 ^ 31 <=? size [97;97] + 32768 * 2) with false. cbn [Z.to_N].
  match goal with |- context [junk_heap ?n] => change n with 0 end. change (junk_heap 0) with (Ok [] : result (list N)).
  assert (W : forall t, size t = 1 \/ size t = 32768 -> w_write (writer_make []) t = Ret (Err E_Overflow, writer_make [])).
  { intros t Ht. apply w_write_reject; [apply writer_make_inv; reflexivity|reflexivity|lia|cbn; lia]. }
  assert (E : replace_loop 5 (writer_make []) [97;97] [97] s 0 0 = Ret (writer_make [], 2)).
  { assert (N0 : w_write (writer_make []) [] = Ret (Ok tt, writer_make [])) by reflexivity.
    change (replace_loop 5 (writer_make []) [97;97] [97] s 0 0) with
      (let! p := w_write (writer_make []) [] in let! q := w_write (snd p) s in replace_loop 4 (snd q) [97;97] [97] s 1 1).
    rewrite N0. cbn [bind snd]. rewrite W by auto. cbn [bind snd].
    change (replace_loop 4 (writer_make []) [97;97] [97] s 1 1) with
      (let! p := w_write (writer_make []) [] in let! q := w_write (snd p) s in replace_loop 3 (snd q) [97;97] [97] s 2 2).
    rewrite N0. cbn [bind snd]. rewrite W by auto. reflexivity. }
  cbn beta iota. rewrite E. cbn [bind fst snd]. eexists. split; reflexivity.
Qed.
Print Assumptions C27_replace_refuted.

(** ** C28 *)
(** Replacing a string: the pieces between the greedy occurrences of [what] glued with
    [by_]. *)
Theorem C28_replace : forall fuel alloc s what by_, heap_ok alloc -> sv_ok s -> sv_ok by_ -> what <> [] -> (length s < fuel)%nat ->
  exists ps, splits what s ps /\ (size (glue by_ ps) < 2 ^ 16 ->
    match alloc (size (glue by_ ps)) with
    | Err _ => str_replace fuel alloc s what by_ = Throws InvalidState
    | Ok _ => exists st, str_replace fuel alloc s what by_ = Ret (Ok st) /\ str_view st = glue by_ ps /\ st_size st = size (glue by_ ps)
    end).
Proof.
  intros fuel alloc s what by_ H Hs Hb Hw Hf. unfold str_replace.
  destruct (count_loop_spec fuel what s 0 0 0) as (ps & E & S); auto; try lia. { unfold size; lia. }
  rewrite E. rewrite ndrop_0 in S. exists ps. split; [exact S|]. intros L. cbn [bind]. rewrite N.add_0_l.
  pose proof (splits_length _ _ _ S) as LE. pose proof (size_pos what Hw). unfold sv_ok in *.
  rewrite (u16_small (N.of_nat (length ps) - 1)) by nia.
  pose proof (size_glue_splits what by_ s ps Hw S) as G. set (k := N.of_nat (length ps) - 1) in *.
  destruct (N.leb_spec (2 ^ 31) (size s + size by_ * k)); [exfalso; nia|].
  rewrite <- G. rewrite Z.mod_small by lia. rewrite N2Z.id.
  destruct (alloc (size (glue by_ ps))) as [b|e] eqn:A; [|reflexivity]. apply H in A.
  destruct (replace_loop_spec fuel what by_ s 0 0 ps Hs Hb Hw (writer_make b)) as (w' & from' & R & I' & P & AP); try lia.
  - apply writer_make_inv. lia.
  - unfold size; lia.
  - now rewrite ndrop_0.
  - cbn. lia.
  - rewrite R. cbn [bind fst snd]. rewrite w_write_append by assumption. cbn [bind fst snd]. eexists. split; [reflexivity|].
    rewrite AP, append_make by exact A. split; [|reflexivity]. now apply str_view_exact.
Qed.
Print Assumptions C28_replace.
(** Replacing a 7-bit character. *)
Theorem C28_replace_char_partial : forall alloc s what with_, heap_ok alloc -> sv_ok s -> what < 128 ->
  match alloc (size s) with
  | Err e => str_replace_char alloc s what with_ = Ret (Err e)
  | Ok _ => exists st, str_replace_char alloc s what with_ = Ret (Ok st) /\
              str_view st = map (fun b => if b =? what then with_ else b) s
  end.
Proof.
  intros alloc s what with_ H Hs Hw. unfold str_replace_char. destruct (alloc (size s)) as [b|e] eqn:E; [|reflexivity].
  apply H in E. destruct (N.ltb_spec (size b) (size s)); [lia|]. eexists. split; [reflexivity|].
  rewrite overwrite_all by assumption. rewrite str_view_exact by (unfold size; now rewrite map_length).
  apply map_ext. intros x. unfold schar. destruct (N.ltb_spec what 128); [|lia].
  destruct (Z.eqb_spec (Z.of_N x) (Z.of_N what)), (N.eqb_spec x what); try reflexivity; lia.
Qed.
Print Assumptions C28_replace_char_partial.
(** Characters from 128 on are never replaced. *)
Theorem C28_replace_char_refuted : forall alloc s what with_, heap_ok alloc -> sv_ok s -> bytes_ok s -> 128 <= what < 256 ->
  forall b, alloc (size s) = Ok b ->
  exists st, str_replace_char alloc s what with_ = Ret (Ok st) /\ str_view st = s.
Proof.
  intros alloc s what with_ H Hs Hy Hw b E. unfold str_replace_char. rewrite E. apply H in E.
  destruct (N.ltb_spec (size b) (size s)); [lia|]. eexists. split; [reflexivity|].
  rewrite overwrite_all by assumption. rewrite str_view_exact by (unfold size; now rewrite map_length).
  rewrite <- (map_id s) at 2. apply map_ext_in. intros x Hx. unfold bytes_ok in Hy. rewrite Forall_forall in Hy. specialize (Hy x Hx).
  unfold schar. destruct (N.ltb_spec what 128); [lia|]. destruct (Z.eqb_spec (Z.of_N x) (Z.of_N what - 256)); [lia|reflexivity].
Qed.
Print Assumptions C28_replace_char_refuted.
Example C28_ok : exists st, str_replace 9 junk_heap [97;98;98;98;99] [98;98] [120;121;122] = Ret (Ok st) /\
  str_view st = [97;120;121;122;98;99].
Proof. eexists. split; vm_compute; reflexivity. Qed.
(** Outside the claim: an empty pattern never ends. *)
Theorem C28_empty_pattern_never_ends : forall alloc s by_ fuel, sv_ok s -> s <> [] -> str_replace fuel alloc s [] by_ = OutOfFuel.
Proof.
  intros alloc s by_ fuel Hs H. pose proof (size_pos s H). unfold sv_ok in Hs. unfold str_replace.
  assert (L : forall f c, sv_count_loop f [] s 0 c = OutOfFuel).
  { induction f as [|f IH]; intros c; [reflexivity|]. cbn [sv_count_loop]. rewrite (@size_nil N), N.add_0_r.
    destruct (N.ltb_spec 0 (size s)); [|lia]. destruct (N.leb_spec 0 (size s)); [|lia]. cbn [andb].
    rewrite substring_spec. change (u16 0 - 0) with 0. rewrite ntake_0. cbn [sv_equals].
    change (u16 (sub16 0 1 + 1)) with 0. apply IH. }
  now rewrite L.
Qed.
Print Assumptions C28_empty_pattern_never_ends.
