(** C146, C169: what the compiler checks, and what the tests of these checks notice. *)
From Coq Require Import ZArith Bool List Lia.
From Verif Require Import Outcome CanFrameModel PoolModel ContainerModel GuardModel GuardSpec GuardProofs.
Import ListNotations.
Open Scope Z_scope.

(** x86-64 Linux with the flags of the project; char16_t has 2 bytes, wchar_t 4. *)
Definition x86_64 : target := Target (fun t => match t with
  | Bool | Char | SChar | UChar => 1 | Char16 | Short | UShort => 2
  | WChar | Char32 | Int | UInt | Float => 4 | Long | ULong | LLong | ULLong | Double | Pointer => 8 | LDouble => 16 end) true true false.

(** C146. Full statement: what is compiled is what the documentation allows,
    [forall T i, compiles T i = true -> documented T i]. Durations can be of floating point, times of pointers: *)
Theorem C146_only_documented_refuted : exists T,
  (compiles T (IDuration Double 8) = true /\ ~ documented T (IDuration Double 8)) /\
  (compiles T (ITime (Some Long) Pointer 8) = true /\ ~ documented T (ITime (Some Long) Pointer 8)) /\
  (compiles T (ITime (Some ULong) ULong 8) = true /\ ~ documented T (ITime (Some ULong) ULong 8)).
Proof.
  exists x86_64. repeat split; try reflexivity; cbn; unfold signed_integer, unsigned_integer; cbn [In].
  - intros [_ [H|[[H _]|[H _]]]]; [|discriminate H|discriminate H]. intuition discriminate.
  - intros (_ & [H|[[H _]|[H _]]] & _); [|discriminate H|discriminate H]. intuition discriminate.
  - intros (_ & _ & m & H & K & _). injection H as <-. destruct K as [H|[[H _]|[H _]]]; [|discriminate H|discriminate H]. intuition discriminate.
Qed.
Print Assumptions C146_only_documented_refuted.

(** Everything documented is compiled; but a frame of no bytes only by compilers that take arrays of no elements. *)
Theorem C146_documented_is_accepted : forall T i, documented T i -> (compiles T i = true <-> zero_arrays T = true \/ i <> IFrame O).
Proof. exact documented_compiles. Qed.
Print Assumptions C146_documented_is_accepted.

(** Exactly what is compiled besides: durations of floating point; times of bool or pointers, and times whose durations have any
    type of the same size. *)
Theorem C146_accepted_partial : forall T i, compiles T i = true <->
  match i with
  | IDuration usec size => size = size_of T usec /\ (signed_integer T usec \/ floating usec)
  | ITime dtype usec size => size = size_of T usec /\ (unsigned_integer T usec \/ usec = Bool \/ usec = Pointer) /\
      exists m, dtype = Some m /\ size_of T m = size_of T usec
  | IFrame mtu => documented T i /\ (zero_arrays T = true \/ mtu <> O)
  | _ => documented T i
  end.
Proof. exact compiles_iff. Qed.
Print Assumptions C146_accepted_partial.

(** Adding durations is compiled exactly for documented types. *)
Theorem C146_durations_that_add : forall T usec size,
  adds T (IDuration usec size) = true <-> documented T (IDuration usec size).
Proof. exact adds_duration. Qed.
Print Assumptions C146_durations_that_add.

(** Adding a duration to a time: also if both are of the same unsigned type, or times of bool. *)
Theorem C146_times_that_add : forall T dtype usec size, adds T (ITime dtype usec size) = true <->
  size = size_of T usec /\ (unsigned_integer T usec \/ usec = Bool) /\
  exists m, dtype = Some m /\ size_of T m = size_of T usec /\ (signed_integer T m \/ m = usec).
Proof. exact adds_time. Qed.
Print Assumptions C146_times_that_add.

(** Which of the saturating functions (C01-C08) is meant: that for signed numbers, for unsigned ones (or bool), or for an unsigned and a signed
    one, and no other. *)
Theorem C146_overload : forall T l r o, saturating_overload T l r = Some o <->
  match o with
  | OSigned => l = r /\ signed_integer T l
  | OUnsigned => l = r /\ (unsigned_integer T l \/ l = GuardModel.Bool)
  | OMixed => (unsigned_integer T l \/ l = GuardModel.Bool) /\ signed_integer T r
  end.
Proof. exact overload_which. Qed.
Print Assumptions C146_overload.

Example C146_accepted_case :
  documented x86_64 (IDuration Long 8) /\ documented x86_64 (ITime (Some Long) ULong 8) /\
  adds x86_64 (ITime (Some Long) ULong 8) = true /\ compiles x86_64 (IDuration Double 8) = true /\ adds x86_64 (IDuration Double 8) = false /\
  compiles x86_64 (ITime (Some Int) ULong 8) = false /\ compiles x86_64 (IDuration Long 16) = false /\
  documented x86_64 (IFrame 0) /\ compiles x86_64 (IFrame 0) = false /\ compiles x86_64 (IFrame 1) = true.
Proof.
  assert (S : signed_integer x86_64 Long) by (left; cbn; auto).
  assert (U : unsigned_integer x86_64 ULong) by (left; cbn; auto 6).
  split; [split; [reflexivity|exact S]|]. split; [split; [reflexivity|]; split; [exact U|]; exists Long; repeat split; auto|].
  repeat match goal with |- _ /\ _ => split end; try reflexivity. cbn. lia.
Qed.

(** The limits on the frame and the pool are where their code needs them: for a larger frame converting a length reads past the end of
    the table, and building a pool of no blocks writes outside of it; within the limits the array accesses are defined, and give what
    the model without checks gives. *)
Theorem C146_frame_limit_is_needed : forall T mtu,
  ((forall len, 0 <= len -> lengthToDlc_checked mtu len = Ret (lengthToDlc mtu len)) <-> documented T (IFrame mtu)) /\
  ((64 < mtu)%nat -> forall len, 64 < len -> lengthToDlc_checked mtu len = UB).
Proof. intros T mtu. split; [apply frame_guard|]. intros A len B. apply frame_overrun; assumption. Qed.
Print Assumptions C146_frame_limit_is_needed.

Theorem C146_pool_limit_is_needed : forall T bits n, 0 < bits -> Z.of_nat n < 2 ^ bits ->
  (pool_init_checked bits n <> UB <-> documented T (IPool n)) /\ ((0 < n)%nat -> pool_init_checked bits n = Ret (pool_init n)).
Proof. intros T. exact pool_guard. Qed.
Print Assumptions C146_pool_limit_is_needed.

Example C146_limits_case :
  lengthToDlc_checked 64 200 = Ret 15 /\ lengthToDlc_checked 65 65 = UB /\ lengthToDlc_checked 65 64 = Ret 15 /\
  pool_init_checked 64 2 = Ret (Pool [CNext (At 1); CNext Null] (At 0)) /\ pool_init_checked 64 0 = UB.
Proof. vm_compute. auto 6. Qed.

(** C169. Full statement: for every build,
      compile_tests_pass b there i64 u64 u32 pad = true -> forall g, g <> PoolBlocks -> g <> AllocatorFits -> there g = true
    (the pool and the allocator have no compile tests). It fails because a test does not say why its program is to be rejected.
    Without their checks the groups of the two tests have arrays of no elements, and the flags of the project reject these: *)
Definition gcc_build : build := Build x86_64 true false true.
Definition without (lost : guard -> bool) (g : guard) : bool := negb (lost g).
Lemma x86_64_types : test_types x86_64 Long ULong UInt.
Proof.
  split; [left; cbn; auto|]. split; [left; cbn; auto 6|]. split; [left; cbn; auto 6|]. split; [reflexivity|discriminate].
Qed.
Theorem C169_group_checks_refuted : exists b there i64 u64 u32 pad, test_types (b_target b) i64 u64 u32 /\ 0 < pad /\
  b_makefiles b = true /\ b_unused_rejected b = false /\ b_links b = true /\
  there GroupTx = false /\ there GroupRx = false /\ compile_tests_pass b there i64 u64 u32 pad = true.
Proof.
  exists gcc_build, (without (fun g => match g with GroupTx | GroupRx => true | _ => false end)), Long, ULong, UInt, 8.
  split; [exact x86_64_types|]. repeat split; vm_compute; reflexivity.
Qed.
Print Assumptions C169_group_checks_refuted.

(** Clang rejects the programs for the sizes of durations and times because nothing uses the member that makes the classes larger: *)
Definition clang_build : build := Build x86_64 true true true.
Theorem C169_sizes_with_clang_refuted : exists b there i64 u64 u32 pad, test_types (b_target b) i64 u64 u32 /\ 0 < pad /\
  b_makefiles b = true /\ b_unused_rejected b = true /\ b_links b = true /\
  there DurationSize = false /\ there TimeSize = false /\ compile_tests_pass b there i64 u64 u32 pad = true.
Proof.
  exists clang_build, (without (fun g => match g with DurationSize | TimeSize => true | _ => false end)), Long, ULong, UInt, 8.
  split; [exact x86_64_types|]. repeat split; vm_compute; reflexivity.
Qed.
Print Assumptions C169_sizes_with_clang_refuted.

(** And with a generator other than for make all tests pass without any check, as they do if nothing can be linked: *)
Theorem C169_other_generators_refuted : exists b i64 u64 u32 pad, test_types (b_target b) i64 u64 u32 /\ 0 < pad /\
  b_unused_rejected b = false /\ b_links b = true /\ compile_tests_pass b (fun _ => false) i64 u64 u32 pad = true.
Proof.
  exists (Build x86_64 false false true), Long, ULong, UInt, 8. split; [exact x86_64_types|]. repeat split; vm_compute; reflexivity.
Qed.
Print Assumptions C169_other_generators_refuted.

(** Exactly: with makefiles and a linker that works, the tests pass iff the checks are there whose loss the build notices: those of what
    is signed, of the duration of a time and of the frame always; those of sizes unless unused members are errors; those of
    groups only if arrays of no elements are taken; those of the pool and the allocator never. *)
Theorem C169_pass_iff_partial : forall b there i64 u64 u32 pad, test_types (b_target b) i64 u64 u32 -> 0 < pad ->
  (compile_tests_pass b there i64 u64 u32 pad = true <->
   b_makefiles b = false \/ b_links b = false \/ forall g, noticed b g -> there g = true).
Proof. exact tests_need. Qed.
Print Assumptions C169_pass_iff_partial.

(** So the tests never fail on the library as it is. *)
Theorem C169_no_false_alarm : forall b i64 u64 u32 pad, test_types (b_target b) i64 u64 u32 -> 0 < pad ->
  compile_tests_pass b (fun _ => true) i64 u64 u32 pad = true.
Proof. intros b i64 u64 u32 pad T P. apply tests_need; auto. Qed.
Print Assumptions C169_no_false_alarm.

Example C169_pass_case :
  test_types x86_64 Long ULong UInt /\
  compile_tests_pass gcc_build (without (fun g => match g with TimeUnsigned => true | _ => false end)) Long ULong UInt 8 = false /\
  compile_tests_pass gcc_build (without (fun g => match g with DurationSize => true | _ => false end)) Long ULong UInt 8 = false /\
  compile_tests_pass clang_build (without (fun g => match g with FrameMtu => true | _ => false end)) Long ULong UInt 8 = false /\
  compile_tests_pass gcc_build (without (fun g => match g with PoolBlocks => true | _ => false end)) Long ULong UInt 8 = true.
Proof. split; [exact x86_64_types|]. vm_compute. auto. Qed.
