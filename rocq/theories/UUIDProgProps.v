(** C162: whatever a program does with UUIDs, they are numbers below 2^128. *)
From Verif Require Import Base BaseLemmas MemViewModel Base16Spec UUIDModel UUIDSpec UUIDProofs UUIDProgModel UUIDProgSpec UUIDProgProofs.

(** Every program runs to its end; the answers it gets are those of the numbers, and at the end each
    object holds the 16 bytes of its number. *)
Theorem C162_program : forall ops, Forall given_ok ops ->
  exists us answers,
    urun [] ops = Ret (concat us, answers) /\
    srun [] ops = (map number us, answers) /\
    Forall (fun u => length u = 16%nat /\ bytes_ok u) us.
Proof.
  intros ops G. destruct (run_goes ops [] [] G) as (mem & xs & E & S & X).
  { exists []. repeat split; constructor. }
  destruct S as (us & -> & F & V). exists us, xs. split; [exact E|]. split; [|exact F].
  destruct (srun [] ops). cbn in *. now subst.
Qed.
Print Assumptions C162_program.

(** The numbers are below 2^128, and different numbers are different bytes: nothing about an object
    is lost by speaking of its number. *)
Theorem C162_number : forall u v, length u = 16%nat -> bytes_ok u -> length v = 16%nat -> bytes_ok v ->
  number u < 2 ^ 128 /\ (number u = number v <-> u = v).
Proof.
  intros u v Lu Bu Lv Bv. split.
  - pose proof (number_lt u Bu) as H. unfold size in H. rewrite Lu in H. exact H.
  - split; [|congruence]. intros E. apply uuid_eq_spec; [congruence|].
    rewrite (eq_number u v (conj Lu Bu) (conj Lv Bv)), E. apply N.eqb_refl.
Qed.
Print Assumptions C162_number.

(** Three objects: the first is assigned to itself, exchanged with itself and given bytes 4 to 8 of
    itself, the second is moved into the first, the third does not exist when it is first asked for. *)
Definition sample : list uop :=
  [UFrom (map N.of_nat (seq 1 20)); QText 1 (repeat 0 36); UNull; QLt 1 0; UAssign 0 0; USwap 0 0; UMoveAssign 0 0;
   UWrite 0 0 4 8; QText 0 (repeat 255 36); UMoveAssign 1 0; QNull 0; UCopy 1; QEq 1 2; USet 2 15 255; USet 2 16 255;
   QGt 2 1; QLe 2 1; QFirst 2; QLast 2; QGet 2 16; UMake [1; 2]; UWrite 2 1 14 9; UFill 0 7; QGet 0 9].
Example C162_ok : Forall given_ok sample.
Proof.
  unfold sample. repeat (apply Forall_cons; [cbn; try exact I; try reflexivity|]); [|constructor 1..].
  split; [lia|]. repeat constructor.
Qed.
Definition sample_end : list (list N) :=
  [repeat 7 16; [5; 6; 7; 8; 5; 6; 7; 8; 9; 10; 11; 12; 13; 14; 15; 16]; [5; 6; 7; 8; 5; 6; 7; 8; 9; 10; 11; 12; 13; 14; 15; 255]].
Example C162_case : urun [] sample = Ret (concat sample_end, snd (srun [] sample)) /\
  map number sample_end = fst (srun [] sample) /\
  nth_error (snd (srun [] sample)) 1 = Some ANoObject /\
  nth_error (snd (srun [] sample)) 3 = Some (ABool true) /\
  nth_error (snd (srun [] sample)) 8 = Some (AText (
    [48; 53; 48; 54; 48; 55; 48; 56; 45; 48; 53; 48; 54; 45; 48; 55; 48; 56; 45; 48; 57; 48; 97; 45; 48; 98; 48; 99; 48; 100; 48; 101; 48; 102; 49; 48])).
Proof. vm_compute. repeat split. Qed.
