(** C163: what the suite for bit copies accepts. *)
From Coq Require Import ZArith Bool List Lia.
From Verif Require Import Outcome BitCopyModel CopySuiteModel CopySuiteSpec CopySuiteProofs.
Import ListNotations.
Open Scope Z_scope.

(** C163. Full statement: the suite accepts a pair of bit copies if and only if they do what their documentation says. It can be read in several
    ways; the theorems are about all of them. *)

(** Copies that move the bits they are asked to move are rejected, whatever they return and whatever happens to other bits. *)
Theorem C163_right_to_aligned_refuted : forall o rd p u2a a2u, sizes_unknown_to_aligned u2a -> moves_to_aligned o rd p u2a ->
  accepts u2a a2u = false.
Proof. exact moves_to_rejected. Qed.
Print Assumptions C163_right_to_aligned_refuted.
Theorem C163_right_from_aligned_refuted : forall o rd p u2a a2u, sizes_unknown_from_aligned a2u -> moves_from_aligned o rd p a2u ->
  accepts u2a a2u = false.
Proof. exact moves_from_rejected. Qed.
Print Assumptions C163_right_from_aligned_refuted.

(** So are copies that return the number of bits they copy, whatever they copy: the suite takes the length now for the number of bits, now for
    their end. *)
Theorem C163_right_count_refuted : forall rd u2a a2u, sizes_unknown_to_aligned u2a -> counts_to_aligned rd u2a -> accepts u2a a2u = false.
Proof. exact counts_rejected. Qed.
Print Assumptions C163_right_count_refuted.

(** The library's copies are accepted at every width of size_t, and are right in no reading. *)
Theorem C163_wrong_is_accepted_refuted : forall sw, 8 <= sw ->
  accepts (copyBitsUnalignedToAligned sw) (copyBitsAlignedToUnaligned sw) = true /\
  (forall o rd p, ~ moves_to_aligned o rd p (copyBitsUnalignedToAligned sw)) /\
  (forall o rd p, ~ moves_from_aligned o rd p (copyBitsAlignedToUnaligned sw)) /\
  (forall rd, ~ counts_to_aligned rd (copyBitsUnalignedToAligned sw)).
Proof.
  intros sw W. assert (A := library_accepted sw W). destruct (library_sizes sw) as [S1 S2]. split; [exact A|].
  split; [|split]; intros; intros H.
  - apply (moves_to_rejected _ _ _ _ (copyBitsAlignedToUnaligned sw)) in H; auto. congruence.
  - apply (moves_from_rejected _ _ _ (copyBitsUnalignedToAligned sw)) in H; auto. congruence.
  - apply (counts_rejected _ _ (copyBitsAlignedToUnaligned sw)) in H; auto. congruence.
Qed.
Print Assumptions C163_wrong_is_accepted_refuted.

(** Exactly what is accepted: copies that refuse null pointers and empty ranges and agree with the library's in the 19 calls of the suite. *)
Theorem C163_accepts_iff_partial : forall u2a a2u, accepts u2a a2u = true <->
  InputsValidation u2a a2u = true /\
  (forall s off d len, In (s, off, d, len) calls_to_aligned ->
     u2a (Some s) off (Some d) len = copyBitsUnalignedToAligned 64 (Some s) off (Some d) len) /\
  (forall s off d len, In (s, off, d, len) calls_from_aligned ->
     a2u (Some s) (Some d) off len = copyBitsAlignedToUnaligned 64 (Some s) (Some d) off len).
Proof. exact accepts_exactly. Qed.
Print Assumptions C163_accepts_iff_partial.
(** The first of these conditions: six calls that must return 0, whatever they leave in the array. *)
Theorem C163_refusals_iff : forall u2a a2u, InputsValidation u2a a2u = true <->
  exists d1 d2 d3 d4 d5 d6,
    u2a None 0 (Some [0; 0; 0; 0]) 32 = Ret (d1, 0) /\ a2u None d1 0 32 = Ret (d2, 0) /\
    u2a d2 0 None 32 = Ret (d3, 0) /\ a2u d2 None 0 32 = Ret (d4, 0) /\
    u2a d2 0 d2 0 = Ret (d5, 0) /\ a2u d5 d5 0 0 = Ret (d6, 0).
Proof.
  assert (K : forall call next, returns 0 call next = true <-> exists d, call = Ret (d, 0) /\ next d = true).
  { intros [[d r]|] next; cbn [returns].
    - rewrite andb_true_iff, Z.eqb_eq. split; [intros [-> H]; eauto|intros (d' & E & H); injection E as -> ->; auto].
    - split; [discriminate|intros (d & E & _); discriminate]. }
  intros u2a a2u. unfold InputsValidation. cbv zeta. split.
  - intro H. apply K in H. destruct H as (d1 & E1 & H). apply K in H. destruct H as (d2 & E2 & H). apply K in H. destruct H as (d3 & E3 & H).
    apply K in H. destruct H as (d4 & E4 & H). apply K in H. destruct H as (d5 & E5 & H). apply K in H. destruct H as (d6 & E6 & _).
    exists d1, d2, d3, d4, d5, d6. auto 7.
  - intros (d1 & d2 & d3 & d4 & d5 & d6 & E1 & E2 & E3 & E4 & E5 & E6). apply K. exists d1. split; [exact E1|]. apply K. exists d2. split; [exact E2|].
    apply K. exists d3. split; [exact E3|]. apply K. exists d4. split; [exact E4|]. apply K. exists d5. split; [exact E5|]. apply K. eauto.
Qed.
Print Assumptions C163_refusals_iff.

(** There are copies that are right in each of the readings. *)
Theorem C163_right_exists : forall o rd p, exists u2a a2u,
  moves_to_aligned o rd p u2a /\ counts_to_aligned rd u2a /\ sizes_unknown_to_aligned u2a /\
  moves_from_aligned o rd p a2u /\ sizes_unknown_from_aligned a2u /\ accepts u2a a2u = false.
Proof.
  intros o rd p. exists (right_to_aligned o rd p), (right_from_aligned o rd p).
  destruct (right_to_ok o rd p) as (A & B & C), (right_from_ok o rd p) as (D & E). repeat (split; [assumption|]).
  now apply (moves_to_rejected o rd p).
Qed.
Print Assumptions C163_right_exists.

(** The test cases that copies right in two of the readings pass. *)
Example C163_case :
  map (fun test => test (right_to_aligned LeastFirst Until ByteStart) (right_from_aligned LeastFirst Until ByteStart)) copy_cases =
    [true; true; true; false; false; false; true; false; false; true; true; true] /\
  map (fun test => test (right_to_aligned LeastFirst Number ByteStart) (right_from_aligned LeastFirst Number ByteStart)) copy_cases =
    [true; true; false; true; true; true; true; false; false; false; false; false].
Proof. split; vm_compute; reflexivity. Qed.
