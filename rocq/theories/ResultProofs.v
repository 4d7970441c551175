From Coq Require Import ZArith List Bool Lia.
From Verif Require Import ResultModel.
Import ListNotations.
Open Scope Z_scope.

Lemma result_classification : forall r,
  isSuccess r = negb (isFailure r) /\ result_not r = isFailure r /\ (isSuccess r = true <-> 0 < r).
Proof.
  intros r. unfold isSuccess, isFailure, result_not. repeat split.
  - destruct (Z.leb_spec r 0); simpl; [discriminate|auto].
  - intros. destruct (Z.leb_spec r 0); simpl; [lia|auto].
Qed.

Lemma enumerators_classified :
  Forall (fun r => isSuccess r = true) [Success; SuccessPartial; SuccessNothing; SuccessTimeout] /\
  Forall (fun r => isFailure r = true)
         [BufferFull; Failure; BadArgument; UnknownInternalError; OutOfMemory; NotFound; NotImplemented] /\
  NoDup [Success; SuccessPartial; SuccessNothing; SuccessTimeout;
         BufferFull; Failure; BadArgument; UnknownInternalError; OutOfMemory; NotFound; NotImplemented].
Proof.
  repeat split; repeat constructor; simpl; unfold Success, SuccessPartial, SuccessNothing, SuccessTimeout, BufferFull,
    Failure, BadArgument, UnknownInternalError, OutOfMemory, NotFound, NotImplemented; intuition discriminate.
Qed.
