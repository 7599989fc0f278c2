(** C157: exactly which UUIDs makeRandomUUID makes, and from which seeds. *)
From Verif Require Import Base BaseLemmas ByteIOModel ByteIOProofs ByteIOSpec UUIDModel UUIDSpec RandomModel RandomProps.

(** What the engine starts with: the seed modulo 2^31 - 1, where 0 counts as 1. *)
Definition start (s : N) : N := N.max 1 (s mod (2 ^ 31 - 1)).
(** The number [n] as the memory of a host holds it in [k] bytes. *)
Definition held (be : bool) (k : nat) (n : N) : list N := let big := be_bytes k n in if be then big else rev big.
Definition times (x : N) : N := (16807 * x) mod (2 ^ 31 - 1).

Lemma start_seed s : engine_seed s = start s.
Proof. unfold engine_seed, start. change (2 ^ 31 - 1) with modulus. destruct (N.eqb_spec (s mod modulus) 0) as [E|E]; [rewrite E; reflexivity|lia]. Qed.
Lemma held_bytes be k n : rnd_bytes be k n = held be k n.
Proof. unfold rnd_bytes, held, be_bytes. rewrite <- le_store_spec. destruct be; now rewrite ?rev_involutive. Qed.
Lemma reach x : live x -> exists s, live s /\ engine_next s = x.
Proof.
  intros (H1 & H2). exists ((1407677000 * x) mod modulus).
  assert (E : engine_next ((1407677000 * x) mod modulus) = x).
  { unfold engine_next. rewrite N.mul_mod_idemp_r by discriminate. rewrite N.mul_assoc. rewrite <- N.mul_mod_idemp_l by discriminate.
    replace (16807 * 1407677000 mod modulus) with 1 by reflexivity. rewrite N.mul_1_l. now apply N.mod_small. }
  split; [|exact E]. split; [|apply N.mod_lt; discriminate]. destruct (N.eq_dec ((1407677000 * x) mod modulus) 0) as [Z|Z]; [|lia].
  rewrite Z in E. change (engine_next 0) with 0 in E. lia.
Qed.

(** The bytes, for every seed: two numbers of eight bytes, or four of four. *)
Theorem C157_bytes : forall be seed, let x := times (start seed) in
  makeRandomUUID be 8 seed = Ret (held be 8 x ++ held be 8 (times x)) /\
  makeRandomUUID be 4 seed = Ret (held be 4 x ++ held be 4 (times x) ++ held be 4 (times (times x)) ++ held be 4 (times (times (times x)))).
Proof. intros be seed x. subst x. rewrite random_eight, random_four, start_seed, !held_bytes. now split. Qed.
Print Assumptions C157_bytes.

(** Two seeds give the same UUID exactly when the engine starts with the same number. *)
Theorem C157_same : forall be step s s', step = 4%nat \/ step = 8%nat ->
  (makeRandomUUID be step s = makeRandomUUID be step s' <-> start s = start s').
Proof.
  intros be step s s' S. rewrite <- !start_seed. split.
  - intros E. destruct (C87_not_null be step s S) as (u & Eu & _). pose proof (eq_sym E) as E'. rewrite Eu in E'.
    destruct (random_head be step s u S Eu) as (_ & F). destruct (random_head be step s' u S E') as (_ & F'). rewrite F' in F.
    apply drawn_inj in F; [|exact S|apply next_live, seed_live|apply next_live, seed_live].
    apply next_inj in F; [congruence|apply seed_live|apply seed_live].
  - intros E. unfold makeRandomUUID. now rewrite E.
Qed.
Print Assumptions C157_same.

(** The UUIDs that are made, on hosts of either kind: one for every number from 1 to 2^31 - 2. *)
Theorem C157_all : forall be u,
  ((exists seed, seed < 2 ^ 32 /\ makeRandomUUID be 8 seed = Ret u) <-> (exists x, 0 < x < 2 ^ 31 - 1 /\ u = held be 8 x ++ held be 8 (times x))) /\
  ((exists seed, seed < 2 ^ 32 /\ makeRandomUUID be 4 seed = Ret u) <->
   (exists x, 0 < x < 2 ^ 31 - 1 /\ u = held be 4 x ++ held be 4 (times x) ++ held be 4 (times (times x)) ++ held be 4 (times (times (times x))))).
Proof.
  intros be u. assert (B : forall x, live x -> exists s, s < 2 ^ 32 /\ times (start s) = x).
  { intros x L. destruct (reach x L) as (s & Ls & E). exists s. split; [destruct Ls as (_ & L2); unfold modulus in L2; lia|]. rewrite <- start_seed. unfold engine_seed.
    destruct Ls as (L1 & L2). rewrite N.mod_small by exact L2. rewrite (proj2 (N.eqb_neq s 0)) by lia. exact E. }
  assert (F : forall s, live (times (start s))) by (intros s; rewrite <- start_seed; apply (next_live _ (seed_live s))).
  split; split.
  - intros (s & _ & E). rewrite (proj1 (C157_bytes be s)) in E. injection E as <-. exists (times (start s)). split; [apply F|reflexivity].
  - intros (x & L & ->). destruct (B x L) as (s & H & <-). exists s. split; [exact H|]. apply (proj1 (C157_bytes be s)).
  - intros (s & _ & E). rewrite (proj2 (C157_bytes be s)) in E. injection E as <-. exists (times (start s)). split; [apply F|reflexivity].
  - intros (x & L & ->). destruct (B x L) as (s & H & <-). exists s. split; [exact H|]. apply (proj2 (C157_bytes be s)).
Qed.
Print Assumptions C157_all.
Example C157_ok : start 0 = 1 /\ start (2 ^ 31 - 1) = 1 /\ start (2 ^ 31) = 1 /\ start (2 ^ 31 + 5) = 6 /\ times 1 = 16807 /\ times 16807 = 282475249 /\
  makeRandomUUID false 8 0 = Ret [167; 65; 0; 0; 0; 0; 0; 0; 241; 58; 214; 16; 0; 0; 0; 0].
Proof. repeat split; reflexivity. Qed.
