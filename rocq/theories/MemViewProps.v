(** C01 and C02: memory views. *)
From Verif Require Import Base BaseLemmas MemViewModel MemViewSpec MemViewProofs.

(** C01: slices are exactly the clamped range, for both view types ... *)
Theorem C01_slice_exact : forall mem v from to, valid mem v ->
  valid mem (view_slice v from to) /\
  contents mem (view_slice v from to) = range from to (contents mem v) /\
  valid mem (mview_slice v from to) /\
  contents mem (mview_slice v from to) = range from to (contents mem v).
Proof.
  intros. repeat split; auto using slice_valid, mslice_valid, slice_contents, mslice_contents.
Qed.
Print Assumptions C01_slice_exact.

Example C01_slice_exact_ok :
  valid [1;2;3;4;5;6] (mkView (Some 1) 4) /\
  contents [1;2;3;4;5;6] (view_slice (mkView (Some 1) 4) 1 100) = [3;4;5] /\
  contents [1;2;3;4;5;6] (mview_slice (mkView (Some 1) 4) 3 1) = [].
Proof. vm_compute. repeat split; congruence. Qed.

(** ... [range] being exactly the elements with [from <= i < to]: *)
Theorem C01_range_meaning : forall (l : list N) from to i,
  nnth (range from to l) i = if from + i <? to then nnth l (from + i) else None.
Proof. exact (@range_nth N). Qed.
Print Assumptions C01_range_meaning.

(** ... and a slice of a slice is one slice of the original. *)
Theorem C01_slice_slice : forall mem v a b c d, valid mem v ->
  contents mem (view_slice (view_slice v a b) c d) =
  contents mem (view_slice v (a + c) (N.min b (a + d))).
Proof.
  intros. rewrite !slice_contents by auto using slice_valid. apply range_range.
Qed.
Print Assumptions C01_slice_slice.

Example C01_slice_slice_ok :
  contents [1;2;3;4;5;6] (view_slice (view_slice (mkView (Some 1) 4) 1 4) 1 9) = [4;5].
Proof. reflexivity. Qed.

(** Indexing reads the indexed byte and rejects every other index. *)
Theorem C01_index : forall mem v i, valid mem v ->
  view_index mem v i = match nnth (contents mem v) i with
                       | Some b => Ret b
                       | None => Throws IndexOutOfRange
                       end.
Proof. exact index_spec. Qed.
Print Assumptions C01_index.

(** sliceFor<T> counts in elements as long as the byte offsets are representable. *)
Theorem C01_sliceFor : forall mem tsz v offset count,
  valid mem v -> (offset + count) * tsz < 2 ^ 64 ->
  contents mem (view_sliceFor tsz v offset count) =
  range (offset * tsz) ((offset + count) * tsz) (contents mem v).
Proof. exact sliceFor_spec. Qed.
Print Assumptions C01_sliceFor.

(** For all arguments: the byte offsets wrap modulo 2^64. *)
Theorem C01_sliceFor_any : forall mem tsz v offset count, valid mem v ->
  contents mem (view_sliceFor tsz v offset count) =
  range ((offset * tsz) mod 2 ^ 64) (((offset + count) mod 2 ^ 64 * tsz) mod 2 ^ 64) (contents mem v).
Proof. intros. unfold view_sliceFor, u64. now apply slice_contents. Qed.
Print Assumptions C01_sliceFor_any.

Example C01_sliceFor_ok : contents [0;1;2;3;4;5;6;7;8] (view_sliceFor 4 (mkView (Some 0) 9) 1 7) = [4;5;6;7;8].
Proof. reflexivity. Qed.

(** C02: equality of views is equality of the bytes they hold. *)
Theorem C02_equals : forall mem v w, valid mem v -> valid mem w ->
  exists b, view_equals mem v w = Ret b /\ (b = true <-> contents mem v = contents mem w).
Proof. exact equals_iff. Qed.
Print Assumptions C02_equals.

Example C02_equals_ok : view_equals [1;2;1;2;3] (mkView (Some 0) 2) (mkView (Some 2) 2) = Ret true /\
  view_equals [1;2;1;2;3] (mkView (Some 0) 2) (mkView (Some 3) 2) = Ret false.
Proof. split; reflexivity. Qed.

(** C02: write is all or nothing, also when source and destination overlap. *)
Theorem C02_write : forall mem v src, valid mem v -> valid mem src ->
  if match v_addr v with None => false | Some _ => v_size src <=? v_size v end
  then exists mem', mview_write mem v src = Ret (Ok tt, mem') /\ wrote mem mem' v (contents mem src)
  else mview_write mem v src = Ret (Err E_DOM, mem).
Proof. exact write_spec. Qed.
Print Assumptions C02_write.

Example C02_write_ok : mview_write [1;2;3;4;5] (mkView (Some 1) 4) (mkView (Some 0) 3) = Ret (Ok tt, [1;1;2;3;5]).
Proof. reflexivity. Qed.

(** C02: reading into a destination fills exactly the destination or changes nothing. *)
Theorem C02_read : forall mem v dest, valid mem v -> valid mem dest ->
  if v_size dest <=? v_size v
  then exists mem', mview_read mem v dest = Ret (Ok tt, mem') /\
         wrote mem mem' dest (firstn (N.to_nat (v_size dest)) (contents mem v))
  else mview_read mem v dest = Ret (Err BasicOverflow, mem).
Proof. exact read_spec. Qed.
Print Assumptions C02_read.

Example C02_read_ok : mview_read [1;2;3;4;5] (mkView (Some 0) 3) (mkView (Some 3) 2) = Ret (Ok tt, [1;2;3;1;2]).
Proof. reflexivity. Qed.

(** C02: fill sets every byte of the view, and only those; the ranged form sets
    the bytes of the clamped sub-range. *)
Theorem C02_fill : forall mem v b, valid mem v ->
  exists mem', mview_fill mem v b = Ret mem' /\ wrote mem mem' v (repeat b (N.to_nat (v_size v))).
Proof. exact fill_spec. Qed.
Print Assumptions C02_fill.

Theorem C02_fill_range : forall mem v b from to, valid mem v ->
  exists mem', mview_fill_range mem v b from to = Ret mem' /\
    wrote mem mem' (mview_slice v from to) (repeat b (length (range from to (contents mem v)))).
Proof.
  intros mem v b from to Hv.
  destruct (fill_spec mem (mview_slice v from to) b (mslice_valid _ _ _ _ Hv)) as (m & E & W).
  exists m. split; [exact E|].
  rewrite <- mslice_contents, <- (Nat2N.id (length _)) by assumption.
  change (N.of_nat (length (contents mem (mview_slice v from to))))
    with (size (contents mem (mview_slice v from to))).
  rewrite size_contents by (apply mslice_valid; assumption). exact W.
Qed.
Print Assumptions C02_fill_range.

Example C02_fill_ok : mview_fill_range [1;2;3;4;5] (mkView (Some 1) 3) 9 1 7 = Ret [1;2;9;9;5].
Proof. reflexivity. Qed.

(** C55: typed access to a view stays inside it.  True without an offset ... *)
Theorem C55_dataAs : forall mem tsz v, valid mem v ->
  view_dataAs mem tsz v =
    if tsz <=? v_size v then Ret (firstn (N.to_nat tsz) (contents mem v)) else Throws AssertFailed.
Proof. exact dataAs_spec. Qed.
Print Assumptions C55_dataAs.

(** ... with an offset only as long as [offset + sizeof(T)] does not wrap: *)
Theorem C55_dataAs_at_partial : forall mem tsz v offset, valid mem v -> offset + tsz < 2 ^ 64 ->
  view_dataAs_at mem tsz v offset =
    if offset + tsz <=? v_size v
    then Ret (range offset (offset + tsz) (contents mem v))
    else Throws AssertFailed.
Proof. exact dataAs_at_spec. Qed.
Print Assumptions C55_dataAs_at_partial.

Example C55_dataAs_at_ok : view_dataAs_at [1;2;3;4;5;6] 4 (mkView (Some 0) 6) 1 = Ret [2;3;4;5].
Proof. reflexivity. Qed.

(** Every offset and size: an access that ends between 2^64 and 2^64 + size() is let
    through and leaves the memory, any other access outside the view is rejected. *)
Theorem C55_dataAs_at_any : forall mem tsz v offset, valid mem v -> size mem < 2 ^ 64 -> offset < 2 ^ 64 -> tsz < 2 ^ 64 ->
  view_dataAs_at mem tsz v offset =
    if offset + tsz <=? v_size v then Ret (range offset (offset + tsz) (contents mem v))
    else if (2 ^ 64 <=? offset + tsz) && (offset + tsz <=? 2 ^ 64 + v_size v) then UB
    else Throws AssertFailed.
Proof.
  intros mem tsz v offset V L Ho Ht. destruct (N.ltb_spec (offset + tsz) (2 ^ 64)) as [G|G].
  - rewrite dataAs_at_spec by assumption. destruct (N.leb_spec (2 ^ 64) (offset + tsz)); [lia|]. reflexivity.
  - assert (v_size v < 2 ^ 64) as Lv by (unfold valid in V; destruct (v_addr v); lia).
    destruct (N.leb_spec (offset + tsz) (v_size v)); [lia|]. destruct (N.leb_spec (2 ^ 64) (offset + tsz)); [|lia]. cbn [andb].
    unfold view_dataAs_at, u64. replace ((offset + tsz) mod 2 ^ 64) with (offset + tsz - 2 ^ 64).
    2:{ apply (N.mod_unique _ _ 1); lia. }
    destruct (N.leb_spec (offset + tsz - 2 ^ 64) (v_size v)), (N.leb_spec (offset + tsz) (2 ^ 64 + v_size v)); try reflexivity; try lia.
    unfold load. destruct (N.eqb_spec tsz 0); [lia|]. unfold ptr_add. destruct (v_addr v) as [a|]; cbn [option_map]; [|reflexivity].
    destruct (N.leb_spec (a + offset + tsz) (size mem)); [lia|reflexivity].
Qed.
Print Assumptions C55_dataAs_at_any.
Example C55_dataAs_at_any_ok : view_dataAs_at [1;2;3;4;5;6] 4 (mkView (Some 0) 6) (2 ^ 64 - 4) = UB /\
  view_dataAs_at [1;2;3;4;5;6] 4 (mkView (Some 0) 6) (2 ^ 64 - 5) = Throws AssertFailed.
Proof. vm_compute. split; reflexivity. Qed.

(** The full claim (every offset is either in range or rejected) is false. *)
Theorem C55_dataAs_at_refuted : exists mem v offset,
  valid mem v /\ offset < 2 ^ 64 /\ view_dataAs_at mem 4 v offset = UB.
Proof. exists [1;2;3;4;5;6], (mkView (Some 0) 6), (2 ^ 64 - 2). vm_compute. repeat split; congruence. Qed.
Print Assumptions C55_dataAs_at_refuted.
