(** Properties of VariableSpan (C42) and RangeView (C43). *)
From Verif Require Import Base BaseLemmas MemViewModel MemViewSpec MemViewProofs ByteIOModel ByteIOSpec ByteIOProofs SpanModel SpanSpec.

Lemma firstn_of_nat {A} n (l : list A) : ntake (N.of_nat n) l = firstn n l.
Proof. now rewrite ntake_firstn, Nat2N.id. Qed.
Lemma skipn_of_nat {A} n (l : list A) : ndrop (N.of_nat n) l = skipn n l.
Proof. now rewrite ndrop_skipn, Nat2N.id. Qed.

Lemma natural_is host_be w r : r_readNatural host_be w r = r_readInt host_be host_be w r.
Proof.
  unfold r_readNatural, r_readInt. destruct (r_read r _) as [[[] ?]| | | |]; cbn [bind]; try reflexivity. destruct w, host_be; reflexivity.
Qed.
Lemma chunk_spec host_be enc w mem v : valid mem v -> v_size v < 2 ^ 64 ->
  exists n t, read_chunk host_be enc w mem v = Ret (n, t) /\ valid mem t /\ inside t v /\
    let bytes := contents mem v in
    (if (length bytes <? wbytes w)%nat then n = 0 /\ contents mem t = bytes
     else n = order_value (prefix_be host_be enc) (firstn (wbytes w) bytes) /\ contents mem t = skipn (wbytes w) bytes).
Proof.
  intros V L. unfold read_chunk. rewrite load_valid_all by exact V. cbn [bind].
  set (bytes := contents mem v). assert (S : size bytes = v_size v) by now apply size_contents.
  assert (E : match enc with Natural => r_readNatural host_be w (reader_make bytes) | LittleEndian => r_readInt host_be false w (reader_make bytes) | BigEndian => r_readInt host_be true w (reader_make bytes) end
    = r_readInt host_be (prefix_be host_be enc) w (reader_make bytes)) by (destruct enc; [apply natural_is|reflexivity|reflexivity]). rewrite E. clear E.
  assert (I : rinv (reader_make bytes)) by (apply reader_make_inv; lia).
  assert (W : N.of_nat (wbytes w) <= 8) by (destruct w; cbn; lia).
  unfold r_readInt. destruct (Nat.ltb_spec (length bytes) (wbytes w)) as [C|C].
  - rewrite r_read_fail by (try exact I; cbn [reader_make r_pos r_lim]; unfold size in *; lia). cbn [bind fst snd]. eexists _, _. split; [reflexivity|].
    unfold r_viewRemaining, reader_make, view_slice, storage_view. cbn [r_buf r_pos r_lim v_size v_addr ptr_add option_map]. rewrite N.min_0_l, N.max_0_r, N.min_id, N.sub_0_r.
    assert (X : ptr_add (v_addr v) (0 + 0) = v_addr v) by (destruct (v_addr v); cbn; [f_equal; lia|reflexivity]). rewrite X, S.
    destruct v as [a s]; cbn [v_addr v_size] in *. repeat split; auto. unfold inside. cbn. destruct a; [lia|]. exact V.
  - rewrite r_read_ok by (try exact I; cbn [reader_make r_pos r_lim]; unfold size in *; lia). cbn [bind fst snd reader_make r_buf r_pos r_lim].
    rewrite swap_host by (unfold section; rewrite firstn_length, skipn_length; cbn [N.to_nat]; lia).
    eexists _, _. split; [reflexivity|]. rewrite N.add_0_l. set (k := N.of_nat (wbytes w)) in *.
    unfold r_viewRemaining, view_slice, storage_view. cbn [r_buf r_pos r_lim v_size v_addr ptr_add option_map].
    assert (K : k <= size bytes) by (unfold k, size; lia).
    rewrite (N.min_l k) by lia. rewrite N.max_l by lia. rewrite N.min_id. cbn [ptr_add option_map].
    split; [|split; [|split]].
    + unfold valid in *. cbn [v_addr v_size]. destruct (v_addr v); cbn; lia.
    + unfold inside. cbn [v_addr v_size]. destruct (v_addr v) as [a|] eqn:Ea; cbn; [lia|]. unfold valid in V. rewrite Ea in V. lia.
    + unfold section, k. rewrite Nat2N.id. reflexivity.
    + rewrite S, contents_alt. cbn [v_addr v_size]. clear S K C I. unfold bytes. rewrite contents_alt, <- skipn_of_nat. fold k. destruct (v_addr v) as [a|] eqn:Ea; cbn [ptr_add option_map].
      * rewrite ndrop_ntake, ndrop_ndrop, N.add_0_l. reflexivity.
      * now rewrite ndrop_skipn, skipn_nil.
Qed.
Lemma inside_slice t v a b : inside t v -> inside (view_slice t a b) v.
Proof.
  unfold inside, view_slice. cbn [v_addr v_size]. destruct (v_addr t), (v_addr v); cbn; lia.
Qed.
Lemma inside_trans a b c : inside a b -> inside b c -> inside a c.
Proof. unfold inside. destruct (v_addr a), (v_addr b), (v_addr c); try tauto; lia. Qed.
Lemma inside_size a b : inside a b -> v_size a <= v_size b.
Proof. unfold inside. destruct (v_addr a), (v_addr b); try tauto; lia. Qed.
Lemma inside_refl mem v : valid mem v -> inside v v.
Proof. unfold inside, valid. destruct (v_addr v); lia. Qed.

Lemma walk_spec host_be enc w mem v0 : v_size v0 < 2 ^ 64 -> forall n fuel v fin, (N.to_nat n < fuel)%nat -> n < 2 ^ 16 -> valid mem v -> inside v v0 -> s_n fin = 0 ->
  exists vs, span_walk fuel host_be enc w mem (mkSpan n v) fin = Ret vs /\
    map (contents mem) vs = records (prefix_be host_be enc) w (N.to_nat n) (contents mem v) /\ Forall (fun x => inside x v0 /\ valid mem x) vs.
Proof.
  intros L0 n. induction n as [|n IH] using N.peano_ind; intros fuel v fin F B V I E; (destruct fuel as [|fuel]; [lia|]); cbn [span_walk]; unfold it_eqb; cbn [s_n]; rewrite E.
  - exists []. split; [reflexivity|]. split; [reflexivity|constructor].
  - destruct (N.eqb_spec (N.succ n) 0) as [|_]; [lia|]. unfold it_deref, it_next. cbn [s_n s_data].
    destruct (N.ltb_spec 0 (N.succ n)); [|lia]. cbn [negb]. destruct (N.eqb_spec 0 (N.succ n)) as [|_]; [lia|].
    destruct (chunk_spec host_be enc w mem v V) as (k & t & -> & Vt & It & C); [pose proof (inside_size _ _ I); lia|]. cbn [bind fst snd].
    assert (Es : sub16 (N.succ n) 1 = n) by (unfold sub16, sub_wrap; lia). rewrite Es.
    destruct (IH fuel (view_slice t k (v_size t)) fin) as (vs & -> & M & Fa); try assumption; try lia.
    { now apply slice_valid. } { apply inside_slice. eapply inside_trans; eassumption. }
    cbn [bind]. eexists. split; [reflexivity|]. cbn [map]. rewrite M, !slice_contents by assumption. rewrite !range_spec, ndrop_0, N.sub_0_r.
    assert (T : ntake (v_size t - k) (ndrop k (contents mem t)) = ndrop k (contents mem t)).
    { apply ntake_all. rewrite size_ndrop, (size_contents mem t Vt). lia. } rewrite T.
    rewrite N2Nat.inj_succ. cbn [records]. split.
    + cbn zeta in C. destruct (Nat.ltb_spec (length (contents mem v)) (wbytes w)); destruct C as (Ck & ->).
      * rewrite Ck, ntake_0, ndrop_0. reflexivity.
      * rewrite <- Ck, ntake_firstn, ndrop_skipn. reflexivity.
    + constructor; [|exact Fa]. split; [apply inside_slice; eapply inside_trans; eassumption|now apply slice_valid].
Qed.

(** C42, over any bytes: the iteration ends after exactly the declared number of records,
    reads nothing outside the view, and every record is a part of the view; which part is
    said by [records]. *)
Theorem C42_any_bytes : forall host_be enc w mem n v, n < 2 ^ 16 -> valid mem v -> v_size v < 2 ^ 64 ->
  exists vs, span_all host_be enc w mem (mkSpan n v) = Ret vs /\ N.of_nat (length vs) = n /\
    Forall (fun x => inside x v) vs /\
    map (contents mem) vs = records (prefix_be host_be enc) w (N.to_nat n) (contents mem v).
Proof.
  intros host_be enc w mem n v B V L. unfold span_all, span_begin, span_end. cbn [s_n s_data].
  destruct (walk_spec host_be enc w mem v L n (S (N.to_nat n)) v (mkSpan 0 v)) as (vs & E & M & F); try assumption; try lia; [now apply (inside_refl mem)|reflexivity|].
  exists vs. split; [exact E|]. split.
  - assert (X : length (records (prefix_be host_be enc) w (N.to_nat n) (contents mem v)) = N.to_nat n).
    { generalize (contents mem v). clear. induction (N.to_nat n) as [|k IH]; intros l; cbn [records]; [reflexivity|]. destruct Nat.ltb; cbn [length]; now rewrite IH. }
    rewrite <- M, map_length in X. lia.
  - split; [|exact M]. eapply Forall_impl; [|exact F]. cbn; intros x X; apply X.
Qed.
Print Assumptions C42_any_bytes.

(** C42, over a serialisation: exactly the records, whatever follows them. *)
(** size() is the number of records iteration meets, empty() tells that there are none. *)
Theorem C42_size : forall host_be enc w mem s, span_size s < 2 ^ 16 -> valid mem (s_data s) -> v_size (s_data s) < 2 ^ 64 ->
  exists vs, span_all host_be enc w mem s = Ret vs /\ N.of_nat (length vs) = span_size s /\ (span_empty s = true <-> vs = []).
Proof.
  intros host_be enc w mem [n v] B V L. cbn [span_size s_n s_data] in *. destruct (C42_any_bytes host_be enc w mem n v B V L) as (vs & E & K & _).
  exists vs. split; [exact E|]. split; [exact K|]. unfold span_empty. cbn [s_n]. rewrite N.eqb_eq. destruct vs; cbn in K; split; intros X; try discriminate; auto. lia.
Qed.
Print Assumptions C42_size.
Theorem C42_round_trip : forall host_be enc w mem recs extra v, N.of_nat (length recs) < 2 ^ 16 ->
  Forall (fun r => size r < 256 ^ N.of_nat (wbytes w)) recs -> valid mem v -> v_size v < 2 ^ 64 ->
  contents mem v = serialised host_be enc w recs ++ extra ->
  exists vs, span_all host_be enc w mem (mkSpan (N.of_nat (length recs)) v) = Ret vs /\ map (contents mem) vs = recs.
Proof.
  intros host_be enc w mem recs extra v B F V L C. destruct (C42_any_bytes host_be enc w mem _ v B V L) as (vs & E & _ & _ & M).
  exists vs. split; [exact E|]. rewrite M, C, Nat2N.id. clear - F. induction F as [|r recs Hr F IH]; [reflexivity|].
  cbn [length records]. unfold serialised. cbn [map concat]. fold (serialised host_be enc w recs).
  set (pre := order_bytes (prefix_be host_be enc) (wbytes w) (size r)). assert (Lp : length pre = wbytes w) by apply order_bytes_length.
  assert (Ev : order_value (prefix_be host_be enc) pre = size r) by now apply order_value_bytes.
  rewrite <- !app_assoc. destruct (Nat.ltb_spec (length (pre ++ r ++ serialised host_be enc w recs ++ extra)) (wbytes w)) as [X|X]; [rewrite app_length in X; lia|].
  rewrite firstn_app, <- Lp, Nat.sub_diag, firstn_all, app_nil_r. rewrite skipn_app, Nat.sub_diag, skipn_all. cbn [skipn app]. rewrite Ev.
  unfold size. rewrite Nat2N.id. rewrite firstn_app, Nat.sub_diag, firstn_all, app_nil_r. rewrite skipn_app, Nat.sub_diag, skipn_all. cbn [skipn app]. f_equal. exact IH.
Qed.
Print Assumptions C42_round_trip.
Example C42_case : exists vs, let mem := [9; 0; 2; 7; 8; 0; 0; 0; 1; 5; 77] in
  contents mem (mkView (Some 1) 10) = serialised false BigEndian W16 [[7; 8]; []; [5]] ++ [77] /\
  span_all false BigEndian W16 mem (mkSpan 3 (mkView (Some 1) 10)) = Ret vs /\ map (contents mem) vs = [[7; 8]; []; [5]].
Proof. eexists. repeat (split; [vm_compute; reflexivity|]). vm_compute. reflexivity. Qed.
(** C42, the end: advanced past the last record, the iterator is the end and stays there
    however often it is advanced again, and asking it for a record raises. *)
Fixpoint step_on (k : nat) (host_be : bool) (enc : encoding) (w : width) (mem : list N) (it : span) : outcome span :=
  match k with O => Ret it | S k' => let! it' := it_next host_be enc w mem it in step_on k' host_be enc w mem it' end.
Theorem C42_end : forall host_be enc w mem n v k, n < 2 ^ 16 -> valid mem v -> v_size v < 2 ^ 64 ->
  exists it, step_on k host_be enc w mem (span_begin (mkSpan n v)) = Ret it /\
    (it_eqb it (span_end (mkSpan n v)) = true <-> n <= N.of_nat k) /\
    (n <= N.of_nat k -> it_deref host_be enc w mem it = Throws AssertFailed) /\
    (N.of_nat k < n -> exists x, it_deref host_be enc w mem it = Ret x /\ inside x v).
Proof.
  intros host_be enc w mem n v k B V L.
  assert (H : forall k m t, m < 2 ^ 16 -> valid mem t -> inside t v -> exists it, step_on k host_be enc w mem (mkSpan m t) = Ret it /\
    s_n it = m - N.of_nat k /\ valid mem (s_data it) /\ inside (s_data it) v).
  { clear k. induction k as [|k IH]; intros m t Bm Vt It; cbn [step_on].
    - eexists. split; [reflexivity|]. cbn [s_n s_data]. repeat split; try assumption. lia.
    - unfold it_next. cbn [s_n s_data]. destruct (N.eqb_spec 0 m) as [<-|E]; cbn [bind].
      + destruct (IH 0 t Bm Vt It) as (it & -> & E & X & Y). exists it. split; [reflexivity|]. split; [lia|]. split; assumption.
      + destruct (chunk_spec host_be enc w mem t Vt) as (c & u & -> & Vu & Iu & _); [pose proof (inside_size _ _ It); lia|]. cbn [bind fst snd].
        assert (Es : sub16 m 1 = m - 1) by (unfold sub16, sub_wrap; lia). rewrite Es.
        destruct (IH (m - 1) (view_slice u c (v_size u))) as (it & -> & E' & X & Y); [lia|now apply slice_valid|apply inside_slice; eapply inside_trans; eassumption|].
        exists it. split; [reflexivity|]. split; [lia|]. split; assumption. }
  destruct (H k n v B V (inside_refl mem v V)) as (it & E & En & Vi & Ii). exists it. split; [exact E|].
  unfold it_eqb, span_end, it_deref. cbn [s_n]. rewrite En. split; [|split].
  - rewrite N.eqb_eq. lia.
  - intros Hk. destruct (N.ltb_spec 0 (n - N.of_nat k)); [lia|reflexivity].
  - intros Hk. destruct (N.ltb_spec 0 (n - N.of_nat k)); [|lia]. cbn [negb].
    destruct (chunk_spec host_be enc w mem (s_data it) Vi) as (c & u & -> & Vu & Iu & _); [pose proof (inside_size _ _ Ii); lia|]. cbn [bind fst snd].
    eexists. split; [reflexivity|]. apply inside_slice. eapply inside_trans; eassumption.
Qed.
Print Assumptions C42_end.
Example C42_end_case : exists it, let mem := [1; 7; 0] in
  step_on 5 false LittleEndian W8 mem (span_begin (mkSpan 2 (mkView (Some 0) 3))) = Ret it /\ it_eqb it (span_end (mkSpan 2 (mkView (Some 0) 3))) = true /\
  it_deref false LittleEndian W8 mem it = Throws AssertFailed.
Proof. eexists. repeat (split; [vm_compute; reflexivity|]). vm_compute. reflexivity. Qed.
(** A record that claims more than there is comes out cut short; after the end there are
    empty records. *)
Example C42_truncated_case : exists vs, let mem := [200; 1; 2] in
  span_all false LittleEndian W8 mem (mkSpan 3 (mkView (Some 0) 3)) = Ret vs /\ map (contents mem) vs = [[1; 2]; []; []].
Proof. eexists. repeat (split; [vm_compute; reflexivity|]). vm_compute. reflexivity. Qed.

(** C43: what a filtered range yields: its first element, selected or not, then the selected
    ones among the others. *)
Lemma skipn_cons {A} (l : list A) i x : nth_error l i = Some x -> skipn i l = x :: skipn (S i) l.
Proof. revert i; induction l as [|y l IH]; intros [|i] H; cbn in *; try discriminate; [congruence|]. now apply IH. Qed.
Lemma between_step {A} (l : list A) a b x : (a < b)%nat -> nth_error l a = Some x -> between l a b = x :: between l (S a) b.
Proof. intros L H. unfold between. rewrite (skipn_cons _ _ _ H). replace (b - a)%nat with (S (b - S a)) by lia. reflexivity. Qed.
Lemma advance_spec {A} (p : A -> bool) l fin : (fin <= length l)%nat -> forall fuel cur, (cur < fin)%nat -> (fin - cur <= fuel)%nat ->
  exists c, advance fuel p l cur fin = Ret c /\ (cur < c <= fin)%nat /\
    ((c = fin /\ filter p (between l (S cur) fin) = []) \/
     (c < fin)%nat /\ exists x, nth_error l c = Some x /\ p x = true /\ filter p (between l (S cur) fin) = x :: filter p (between l (S c) fin)).
Proof.
  intros L. induction fuel as [|fuel IH]; intros cur H F; [lia|]. cbn [advance]. destruct (Nat.eqb_spec (S cur) fin) as [E|E].
  - exists (S cur). split; [reflexivity|]. split; [lia|]. left. split; [exact E|]. unfold between. rewrite E, Nat.sub_diag. reflexivity.
  - destruct (nth_error l (S cur)) as [x|] eqn:Ex; [|apply nth_error_None in Ex; lia]. rewrite (between_step l (S cur) fin x) by (try lia; exact Ex). cbn [filter].
    destruct (p x) eqn:P.
    + exists (S cur). split; [reflexivity|]. split; [lia|]. right. split; [lia|]. exists x. auto.
    + destruct (IH (S cur)) as (c & -> & R & X); try lia. exists c. split; [reflexivity|]. split; [lia|]. exact X.
Qed.
Theorem C43_yields : forall A (p : A -> bool) l start fin x, (start < fin)%nat -> (fin <= length l)%nat -> nth_error l start = Some x ->
  rv_all p l start fin = Ret (x :: filter p (between l (S start) fin)).
Proof.
  intros A p l start fin x H L E. unfold rv_all.
  assert (G : forall fuel cur y, (cur < fin)%nat -> (fin - cur < fuel)%nat -> nth_error l cur = Some y -> rv_walk fuel p l cur fin = Ret (y :: filter p (between l (S cur) fin))).
  { induction fuel as [|fuel IH]; intros cur y C F Ey; [lia|]. cbn [rv_walk]. destruct (Nat.eqb_spec cur fin); [lia|]. rewrite Ey. unfold rv_next.
    destruct (Nat.eqb_spec cur fin); [lia|]. destruct (advance_spec p l fin L (S (length l)) cur) as (c & -> & R & X); try lia. cbn [bind].
    destruct X as [(-> & ->)|(Lc & z & Ez & _ & ->)].
    - destruct fuel as [|fuel]; [lia|]. cbn [rv_walk]. now rewrite Nat.eqb_refl.
    - rewrite (IH c z) by (try lia; assumption). reflexivity. }
  apply G; try assumption; lia.
Qed.
Print Assumptions C43_yields.
Theorem C43_empty : forall A (p : A -> bool) l start, rv_all p l start start = Ret [].
Proof. intros A p l start. unfold rv_all. cbn [rv_walk]. now rewrite Nat.eqb_refl. Qed.
(** Hence the elements satisfying the predicate, if the first one does. *)
Theorem C43_filter_partial : forall A (p : A -> bool) l start fin x, (start < fin)%nat -> (fin <= length l)%nat ->
  nth_error l start = Some x -> p x = true -> rv_all p l start fin = Ret (filter p (between l start fin)).
Proof. intros A p l start fin x H L E P. rewrite (C43_yields A p l start fin x H L E), (between_step l start fin x H E). cbn [filter]. now rewrite P. Qed.
Print Assumptions C43_filter_partial.
(** When the first one does not, it is delivered all the same. *)
Theorem C43_filter_refuted : forall A (p : A -> bool) l start fin x, (start < fin)%nat -> (fin <= length l)%nat ->
  nth_error l start = Some x -> p x = false ->
  rv_all p l start fin = Ret (x :: filter p (between l start fin)) /\ ~ In x (filter p (between l start fin)).
Proof.
  intros A p l start fin x H L E P. rewrite (C43_yields A p l start fin x H L E), (between_step l start fin x H E). cbn [filter]. rewrite P. split; [reflexivity|].
  intros I. apply filter_In in I as (_ & I). congruence.
Qed.
Print Assumptions C43_filter_refuted.
Example C43_case : rv_all (fun x => x <? 3) [1; 5; 2; 7; 0] 0 5 = Ret [1; 2; 0] /\ rv_all (fun x => x <? 3) [1; 5; 2; 7; 0] 1 4 = Ret [5; 2].
Proof. split; reflexivity. Qed.
