From Coq Require Import Ascii String.
From Verif Require Import Base BaseLemmas FmtModel FmtSpec FmtProofs AtomSpec ExceptionModel ExceptionSpec.

Lemma decz_spec z : decimal_z z (decz z).
Proof.
  unfold decimal_z, decz. destruct (Z.ltb_spec z 0).
  - exists (dec (Z.to_N (- z))). replace (Z.abs_N z) with (Z.to_N (- z)) by lia. split; [apply dec_spec|reflexivity].
  - exists (dec (Z.to_N z)). replace (Z.abs_N z) with (Z.to_N z) by lia. split; [apply dec_spec|reflexivity].
Qed.
Lemma decimal_dec v d : decimal v d -> d = dec v.
Proof. intros H. apply (decimal_unique v); [exact H|apply dec_spec]. Qed.
Lemma decimal_decz z t : decimal_z z t -> t = decz z.
Proof.
  intros (d & D & ->). apply decimal_dec in D. subst d. unfold decz. destruct (Z.ltb_spec z 0).
  - replace (Z.abs_N z) with (Z.to_N (- z)) by lia. reflexivity.
  - replace (Z.abs_N z) with (Z.to_N z) by lia. reflexivity.
Qed.

(** A writer of [n] bytes holding [t], zeros behind. *)
Definition writing (n : N) (t : list N) (w : swriter) : Prop :=
  size t <= n /\ w = mkSW n (size t) (Some (t ++ repeat 0 (N.to_nat (n + 1 - size t)))).

Lemma writing_new n : writing n [] (sw_new true n).
Proof. split; [rewrite (@size_nil N); lia|]. unfold sw_new. rewrite (@size_nil N). cbn [app]. now rewrite N.sub_0_r. Qed.

Lemma overwrite_zeros t z k : (length z <= k)%nat -> overwrite (t ++ repeat 0 k) (size t) z = t ++ z ++ repeat 0 (k - length z).
Proof.
  intros H. unfold overwrite. rewrite ntake_app_exact. f_equal. f_equal.
  rewrite ndrop_app, ndrop_all by lia. cbn [app]. replace (size t + size z - size t) with (size z) by lia.
  replace k with (length z + (k - length z))%nat at 1 by lia. rewrite repeat_app, ndrop_app, ndrop_all by (unfold size; rewrite repeat_length; lia).
  replace (size z - size (repeat 0 (length z))) with 0 by (unfold size; rewrite repeat_length; lia). apply ndrop_0.
Qed.

Lemma append_writing n t w d : n < 2 ^ 16 -> writing n t w -> size t + size d <= n ->
  exists w', sw_append w d = Ret w' /\ writing n (t ++ d) w'.
Proof.
  intros B (L & ->) H. unfold sw_append, sw_remaining. cbn [sw_size sw_offset sw_buffer].
  change (2 ^ 16) with 65536 in B. replace (sub16 n (size t)) with (n - size t) by (unfold sub16, sub_wrap; change (2 ^ 16) with 65536; lia).
  rewrite N.min_l by lia. replace (ntake (size d) d) with d by (now rewrite ntake_all by lia).
  unfold sw_store. cbn [sw_buffer sw_offset]. destruct (N.eqb_spec (size d) 0) as [Z|Z].
  - cbn [bind]. assert (d = []) as -> by (destruct d; [reflexivity|rewrite size_cons in Z; lia]).
    eexists. split; [reflexivity|]. rewrite app_nil_r. split; [exact L|]. f_equal. rewrite (@size_nil N), N.add_0_r. unfold u16. apply N.mod_small. lia.
  - destruct (N.ltb_spec (size (t ++ repeat 0 (N.to_nat (n + 1 - size t)))) (size t + size d)) as [X|X].
    { rewrite size_app in X. unfold size in X at 2. rewrite repeat_length in X. lia. }
    cbn [bind]. eexists. split; [reflexivity|]. rewrite overwrite_zeros by (unfold size in *; lia).
    split; rewrite size_app; [lia|]. f_equal; [unfold u16; apply N.mod_small; change (2 ^ 16) with 65536; lia|].
    f_equal. rewrite <- app_assoc. f_equal. f_equal. f_equal. unfold size in *. lia.
Qed.
Lemma format_writing n t w d : n < 2 ^ 16 -> writing n t w -> size t + size d < n ->
  exists w', sw_format w d = Ret w' /\ writing n (t ++ d) w'.
Proof.
  intros B (L & ->) H. unfold sw_format, sw_remaining. cbn [sw_size sw_offset sw_buffer].
  change (2 ^ 16) with 65536 in B. replace (sub16 n (size t)) with (n - size t) by (unfold sub16, sub_wrap; change (2 ^ 16) with 65536; lia).
  destruct (N.eqb_spec (n - size t) 0); [lia|].
  replace (ntake (n - size t - 1) d) with d by (now rewrite ntake_all by lia).
  unfold sw_store. cbn [sw_buffer sw_offset]. rewrite size_app. change (size [0]) with 1. destruct (N.eqb_spec (size d + 1) 0) as [Z|Z]; [lia|].
  destruct (N.ltb_spec (size (t ++ repeat 0 (N.to_nat (n + 1 - size t)))) (size t + (size d + 1))) as [X|X].
  { rewrite size_app in X. unfold size in X at 2. rewrite repeat_length in X. lia. }
  cbn [bind]. eexists. split; [reflexivity|]. rewrite overwrite_zeros by (rewrite app_length; cbn [length]; unfold size in *; lia).
  split; rewrite size_app; [lia|]. f_equal; [unfold u16; apply N.mod_small; change (2 ^ 16) with 65536; lia|].
  f_equal. rewrite <- !app_assoc. f_equal. f_equal. rewrite app_length. cbn [app length].
  match goal with |- 0 :: repeat 0 ?a = repeat 0 ?b => change (repeat 0 (S a) = repeat 0 b) end. f_equal. unfold size in *. lia.
Qed.

(** A finished message: the text, then at least one NUL. *)
Definition holds_text (s : error_string) (t : list N) : Prop :=
  es_size s = size t /\ exists k, es_message s = Some (t ++ repeat 0 (S k)).
Lemma holds_build n t w : writing n t w -> holds_text (sw_build w) t.
Proof.
  intros (L & ->). split; [reflexivity|]. exists (N.to_nat (n - size t)). cbn [sw_build es_message sw_buffer]. f_equal. f_equal. f_equal. lia.
Qed.
Lemma holds_make t : exists s, es_make true t = Ret s /\ holds_text s t.
Proof.
  eexists. split; [reflexivity|]. split; [reflexivity|]. exists 0%nat. cbn [es_message].
  change (repeat 0 (N.to_nat (size t + 1))) with ([] ++ repeat 0 (N.to_nat (size t + 1))). change 0 with (size (@nil N)) at 2.
  rewrite overwrite_zeros by (unfold size; lia). cbn [app]. f_equal. f_equal. f_equal. unfold size. lia.
Qed.
Lemma holds_view s t : holds_text s t -> es_view s = Ret t.
Proof.
  intros (A & k & B). unfold es_view. rewrite A, B. destruct (N.ltb_spec (size (t ++ repeat 0 (S k))) (size t)) as [X|X]; [rewrite size_app in X; lia|].
  f_equal. apply ntake_app_exact.
Qed.
Lemma holds_cstr s t : holds_text s t -> es_cstr s = Ret (c_string t).
Proof.
  intros (_ & k & B). unfold es_cstr. rewrite B. replace (existsb (N.eqb 0) (t ++ repeat 0 (S k))) with true
    by (symmetry; rewrite existsb_app; cbn; now rewrite orb_true_r).
  f_equal. clear B. induction t as [|c t IH]; [reflexivity|]. cbn [app c_string]. now rewrite IH.
Qed.

Ltac sizes := rewrite ?size_app in *; change (size (@nil N)) with 0 in *; repeat match goal with |- context [size (lit ?s)] => let v := eval vm_compute in (size (lit s)) in change (size (lit s)) with v in *
  | H : context [size (lit ?s)] |- _ => let v := eval vm_compute in (size (lit s)) in change (size (lit s)) with v in * end.
Ltac put_piece := match goal with
  | W : writing ?n ?t ?w |- context [sw_append ?w ?d] =>
      let w' := fresh "w" in let E := fresh "E" in let W' := fresh "W" in
      destruct (append_writing n t w d) as (w' & E & W'); [assumption | exact W | sizes; lia | rewrite E; cbn [bind]; clear E W]
  | W : writing ?n ?t ?w |- context [sw_format ?w ?d] =>
      let w' := fresh "w" in let E := fresh "E" in let W' := fresh "W" in
      destruct (format_writing n t w d) as (w' & E & W'); [assumption | exact W | sizes; lia | rewrite E; cbn [bind]; clear E W]
  end.
Ltac start n := let W := fresh "W" in pose proof (writing_new n) as W; set (w0 := sw_new true n) in *; clearbody w0.

Lemma join_text lhs rhs delim : size lhs + size delim + size rhs < 2 ^ 16 ->
  exists s, formatErrorStringJoin true lhs rhs delim = Ret s /\ holds_text s (lhs ++ delim ++ rhs).
Proof.
  intros H. change (2 ^ 16) with 65536 in H. unfold formatErrorStringJoin. unfold u16. rewrite N.mod_small by (change (2 ^ 16) with 65536; lia).
  assert (B : size lhs + size rhs + size delim < 2 ^ 16) by (change (2 ^ 16) with 65536; lia).
  start (size lhs + size rhs + size delim). repeat put_piece. eexists. split; [reflexivity|].
  eapply holds_build. rewrite <- !app_assoc in *. cbn [app] in *. eassumption.
Qed.
Lemma illegal_text name : size (lit "Illegal argument '" ++ name ++ lit "'") + 2 < 2 ^ 16 ->
  exists s, formatIlligalArgName true name = Ret s /\ holds_text s (lit "Illegal argument '" ++ name ++ lit "'").
Proof.
  intros H. unfold formatIlligalArgName, measure_view. change (measure_lit (lit "Illegal argument '")) with 19. change (measure_lit (lit "'")) with 2.
  sizes. change (2 ^ 16) with 65536 in H. unfold u16. rewrite N.mod_small by (change (2 ^ 16) with 65536; lia).
  assert (B : 19 + size name + 2 < 2 ^ 16) by (change (2 ^ 16) with 65536; lia).
  start (19 + size name + 2). repeat put_piece. eexists. split; [reflexivity|].
  eapply holds_build. rewrite <- !app_assoc in *. cbn [app] in *. eassumption.
Qed.
Lemma errno_text strerror code msg : size (msg ++ lit "[" ++ decz code ++ lit "]: " ++ strerror code) + 2 < 2 ^ 16 ->
  exists s, formatErrono true strerror code msg = Ret s /\ holds_text s (msg ++ lit "[" ++ decz code ++ lit "]: " ++ strerror code).
Proof.
  intros H. unfold formatErrono, measure_view, measure_num. change (measure_lit (lit "[")) with 2. change (measure_lit (lit "]: ")) with 4.
  sizes. change (2 ^ 16) with 65536 in H. unfold u16. rewrite (N.mod_small (size (decz code))) by (change (2 ^ 16) with 65536; lia).
  rewrite (N.mod_small (size (strerror code))) by (change (2 ^ 16) with 65536; lia).
  replace (ntake (size (strerror code)) (strerror code)) with (strerror code) by (now rewrite ntake_all by lia).
  set (n := size msg + 2 + size (decz code) + 4 + size (strerror code)).
  rewrite N.mod_small by (change (2 ^ 16) with 65536; lia).
  assert (B : n < 2 ^ 16) by (change (2 ^ 16) with 65536; lia). assert (E0 : n = size msg + 2 + size (decz code) + 4 + size (strerror code)) by reflexivity. clearbody n.
  start n. repeat put_piece. eexists. split; [reflexivity|].
  eapply holds_build. rewrite <- !app_assoc in *. cbn [app] in *. eassumption.
Qed.
Definition named (name : list N) : list N := match name with [] => lit ": " | _ => lit " '" ++ name ++ lit "'=" end.
Lemma range_built subject name reason i a b :
  let t := subject ++ named name ++ dec i ++ lit " " ++ reason ++ lit " [" ++ dec a ++ lit ", " ++ dec b ++ lit ")" in
  size t + 8 < 2 ^ 16 ->
  exists s, formatIndexOutOfRangeError true subject name reason i a b = Ret s /\ holds_text s t.
Proof.
  intros t H. unfold formatIndexOutOfRangeError, measure_view, measure_num.
  change (measure_lit (lit " '")) with 3. change (measure_lit (lit "'=")) with 3. change (measure_lit (lit " ")) with 2.
  change (measure_lit (lit " [")) with 3. change (measure_lit (lit ", ")) with 3. change (measure_lit (lit ")")) with 2.
  assert (SN : size name + 2 <= size (named name) + 0 /\ size (named name) <= size name + 4).
  { unfold named. destruct name as [|c name]; [split; vm_compute; discriminate|]. sizes. lia. }
  unfold t in H. sizes. change (2 ^ 16) with 65536 in H. unfold u16.
  rewrite (N.mod_small (size (dec i))), (N.mod_small (size (dec a))), (N.mod_small (size (dec b))) by (change (2 ^ 16) with 65536; lia).
  set (n := size subject + 3 + size name + 3 + size (dec i) + 2 + size reason + 3 + size (dec a) + 3 + size (dec b) + 2).
  rewrite N.mod_small by (change (2 ^ 16) with 65536; unfold n; lia).
  assert (B : n < 2 ^ 16) by (change (2 ^ 16) with 65536; lia).
  assert (E0 : n = size subject + 3 + size name + 3 + size (dec i) + 2 + size reason + 3 + size (dec a) + 3 + size (dec b) + 2) by reflexivity. clearbody n.
  start n. put_piece.
  assert (M : exists w', (if negb (size name =? 0)
            then let! w1 := sw_format w (lit " '") in let! w1 := sw_append w1 name in sw_format w1 (lit "'=")
            else sw_format w (lit ": ")) = Ret w' /\ writing n (subject ++ named name) w').
  { unfold named. destruct name as [|c name]; cbn [app] in W0.
    - cbn [negb]. change (size (@nil N) =? 0) with true. cbn [negb].
      destruct (format_writing n subject w (lit ": ")) as (w' & E & W'); [assumption|assumption|sizes; lia|]. exists w'. split; assumption.
    - destruct (N.eqb_spec (size (c :: name)) 0) as [X|X]; [rewrite size_cons in X; lia|]. cbn [negb].
      do 2 put_piece. match goal with W : writing _ ?t ?w |- context [sw_format ?w ?d] => destruct (format_writing n t w d) as (w' & E & W'); [assumption|assumption|sizes; lia|] end.
      exists w'. split; [exact E|]. rewrite <- !app_assoc in W'. exact W'. }
  destruct M as (w1 & -> & W1). cbn [bind]. clear W0. repeat put_piece. eexists. split; [reflexivity|].
  eapply holds_build. unfold t. rewrite <- !app_assoc in *. cbn [app] in *. eassumption.
Qed.
