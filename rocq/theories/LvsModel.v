(** Model of the validation suite that the project offers to its users (libuavcan_validation_suite/include/lvs) and of the
    suite for the saturation mathematics (test/native/test_util_math.cpp), applied to the models of the library's types.
    A test case is a computation that returns whether all its assertions hold; a failed assertion ends the test case, as
    gtest's ASSERT_* macros do. Undefined behaviour met on the way is the outcome of the test case. *)
From Coq Require Import ZArith Bool List.
From Verif Require Import Outcome CInt SatMathModel TimeModel CanFrameModel PoolModel.
Import ListNotations.
Open Scope Z_scope.

(** ASSERT_TRUE: go on with [k] if [b] holds, else leave the test case.
    gtest/gtest.h; as used in lvs/time.hpp line 75 and all other test cases of the suite. *)
Definition assert_then (b : bool) (k : outcome bool) : outcome bool := if b then k else Ret false.
Notation "'assert' b ;; k" := (assert_then b k) (at level 200, b at level 100, k at level 200).

(** * lvs/time.hpp *)

(** What the typed tests use of their TypeParam: the limits of its MicrosecondType, those of its DurationType's, the
    operators [T + DurationType] and [T - DurationType], getMaximum() of both. Objects are their microsecond counts;
    fromMicrosecond and toMicrosecond (libuavcan/time.hpp lines 111-124 and 294-307) only wrap and unwrap.
    lvs/time.hpp lines 129-153 and 335-347. *)
Record time_type : Type := TimeType {
  us_min : Z;
  us_max : Z;
  t_maximum : Z;
  dur_maximum : Z;
  t_add : Z -> Z -> outcome Z;
  t_sub : Z -> Z -> outcome Z
}.

(** libuavcan::duration::Base and libuavcan::time::Base over integers of [w] bits. libuavcan/time.hpp lines 57-210. *)
Definition duration_type (P : platform) (w : Z) : time_type :=
  TimeType (smin w) (smax w) (dur_max w) (dur_max w) (dur_add P w) (dur_sub P w).
(** libuavcan/time.hpp lines 237-373, the same for points in time. *)
Definition timepoint_type (P : platform) (w : Z) : time_type :=
  TimeType 0 (umax w) (time_max w) (dur_max w) (time_add P w) (time_sub P w).

(** lvs/time.hpp lines 67-102 (and 184-219, 295-330, the same text): DefaultOperations. Variables: 0 default_ctor,
    1 assignFrom, 2 copyCtorLhs, 3 moved_into, 4 move_from, 5 destructed. A fresh object is 0. *)
Definition default_operations : outcome bool :=
  let s := fun _ => 0 in
  assert (s 0%nat =? 0) ;;
  let s := upd s 1 2 in
  let s := exec_xfer s (CopyTo 0 1) in
  assert (s 0%nat =? 2) ;;
  assert (s 1%nat =? 2) ;;
  let s := exec_xfer s (CopyTo 2 0) in
  assert (s 2%nat =? 2) ;;
  let s := exec_xfer s (MoveTo 3 0) in
  assert (s 3%nat =? 2) ;;
  assert (s 0%nat =? 0) ;;
  let s := upd s 4 2 in
  let s := exec_xfer s (MoveTo 0 4) in
  assert (s 0%nat =? 2) ;;
  assert (s 4%nat =? 0) ;;
  assert (s 5%nat =? 0) ;;
  Ret true.

(** lvs/time.hpp lines 107-116: ComparisonOperators. *)
Definition comparison_operators : outcome bool :=
  assert op_eq 0 0 ;;
  assert negb (op_ne 0 0) ;;
  assert negb (op_lt 0 0) ;;
  assert negb (op_gt 0 0) ;;
  assert op_le 0 0 ;;
  assert op_ge 0 0 ;;
  Ret true.

(** lvs/time.hpp lines 121-124: Concept_fromMicrosecond. The literal 100 is converted to the MicrosecondType in both operands:
    [conv] is that conversion. *)
Definition concept_from_microsecond (conv : Z -> Z) : outcome bool :=
  assert (conv 100 =? conv 100) ;; Ret true.

(** lvs/time.hpp lines 129-134: SaturatedAdd. *)
Definition saturated_add (T : time_type) : outcome bool :=
  let* i := t_add T (us_max T) 1 in assert (us_max T =? i) ;; Ret true.
(** lvs/time.hpp lines 139-144: SaturatedSubtract. *)
Definition saturated_subtract (T : time_type) : outcome bool :=
  let* i := t_sub T (us_min T) 1 in assert (us_min T =? i) ;; Ret true.

(** lvs/time.hpp lines 149-153: GetMaximum. *)
Definition get_maximum (T : time_type) : outcome bool := assert op_eq (us_max T) (t_maximum T) ;; Ret true.

(** lvs/time.hpp lines 155-161: the suite DurationOrTimeTest. *)
Definition duration_or_time_suite (conv : Z -> Z) (T : time_type) : list (outcome bool) :=
  [comparison_operators; default_operations; concept_from_microsecond conv; saturated_add T; get_maximum T;
   saturated_subtract T].

(** lvs/time.hpp lines 224-231: DurationTest, AbsoluteValue. *)
Definition absolute_value (P : platform) (w : Z) : outcome bool :=
  let* a := dur_abs P w (-1) in
  assert (1 =? a) ;;
  let* a := dur_abs P w 1 in
  assert (1 =? a) ;;
  Ret true.

(** lvs/time.hpp lines 236-265: DurationTest, ArithmeticOperators. *)
Definition duration_arithmetic (P : platform) (w : Z) : outcome bool :=
  let* lhs := dur_add P w 1 1 in
  assert op_eq 2 lhs ;;
  let* lhs := dur_add P w lhs (dur_max w) in
  assert op_eq (dur_max w) lhs ;;
  let* lhs := dur_sub P w lhs 10 in
  let* e := dur_sub P w (dur_max w) 10 in
  assert op_eq e lhs ;;
  let* n := dur_neg P w 1 in
  assert op_eq (-1) n ;;
  let* n := dur_neg P w (dur_max w) in
  assert op_eq (smin w + 1) n ;;
  let* m := dur_sub P w (dur_max w) 1 in
  let* n := dur_neg P w m in
  assert op_eq (smin w + 2) n ;;
  let* n := dur_neg P w (smin w) in
  assert op_eq (smax w) n ;;
  let* n := dur_neg P w (smin w + 1) in
  assert op_eq (smax w) n ;;
  let* n := dur_neg P w (smin w + 2) in
  assert op_eq (smax w - 1) n ;;
  Ret true.

(** lvs/time.hpp lines 269-272: the suite DurationTest. *)
Definition duration_suite (P : platform) (w : Z) : list (outcome bool) :=
  [absolute_value P w; duration_arithmetic P w; default_operations].

(** lvs/time.hpp lines 335-347: TimeTest, ArithmeticOperators. [w] is the width of both microsecond types. *)
Definition time_arithmetic (P : platform) (w : Z) : outcome bool :=
  let* t := time_add P w 1 1 in
  assert op_eq 2 t ;;
  let* t := time_add P w 0 (dur_max w) in
  assert op_eq (dur_max w) (scast w t) ;;
  let* t := time_add P w (time_max w) (dur_max w) in
  assert op_eq (time_max w) t ;;
  let* t := time_sub P w 1 1 in
  assert op_eq 0 t ;;
  Ret true.

(** lvs/time.hpp lines 349-351: the suite TimeTest. *)
Definition time_suite (P : platform) (w : Z) : list (outcome bool) := [time_arithmetic P w; default_operations].

(** * test/native/test_util_math.cpp *)

(** The TypeParam of SaturatedMathTest (test_util_math.cpp lines 13-18, 76-86): limits and signedness of both operand types, conversion to
    the left type, and the functions under test. *)
Record math_type : Type := MathType {
  l_min : Z; l_max : Z; r_min : Z; r_max : Z;
  l_signed : bool; r_signed : bool;
  l_cast : Z -> Z;
  m_add : Z -> Z -> outcome Z;
  m_sub : Z -> Z -> outcome Z
}.

(** The kinds of rows of IntTypes (test_util_math.cpp lines 88-96): line 88. *)
Definition math_bool (P : platform) : math_type :=
  MathType 0 1 0 1 false false bcast (saturating_add_b P) (saturating_sub_b P).
(** test_util_math.cpp lines 90, 92 and 94. *)
Definition math_signed (P : platform) (w : Z) : math_type :=
  MathType (smin w) (smax w) (smin w) (smax w) true true (scast w) (saturating_add_s P w) (saturating_sub_s P w).
(** test_util_math.cpp lines 89, 91 and 93. *)
Definition math_unsigned (P : platform) (w : Z) : math_type :=
  MathType 0 (umax w) 0 (umax w) false false (ucast w) (saturating_add_u P w) (saturating_sub_u P w).
(** test_util_math.cpp lines 95-96. *)
Definition math_mixed (P : platform) (w : Z) : math_type :=
  MathType 0 (umax w) (smin w) (smax w) false true (ucast w) (saturating_add_us P w) (saturating_sub_us P w).

(** ASSERT_EQ(expected, f(a, b)). test_util_math.cpp line 109 and the other test cases. *)
Definition expect (f : Z -> Z -> outcome Z) (a b expected : Z) : outcome bool :=
  let* c := f a b in assert (expected =? c) ;; Ret true.

(** test_util_math.cpp lines 104-110. In this and the following three, the initialisers max() - 2 and min() + 2 are converted to the left type, which matters for bool. *)
Definition m_saturating_add (T : math_type) := expect (m_add T) (l_max T) 1 (l_max T).
(** test_util_math.cpp lines 112-118. *)
Definition m_saturating_sub (T : math_type) := expect (m_sub T) (l_min T) 1 (l_min T).
(** test_util_math.cpp lines 120-126. *)
Definition m_nonsaturating_add (T : math_type) :=
  let a := l_cast T (l_max T - 2) in expect (m_add T) a 1 (l_cast T (a + 1)).
(** test_util_math.cpp lines 128-134. *)
Definition m_nonsaturating_sub (T : math_type) :=
  let a := l_cast T (l_min T + 2) in expect (m_sub T) a 1 (l_cast T (a - 1)).

(** test_util_math.cpp lines 137-143. *)
Definition m_add_max_max (T : math_type) := expect (m_add T) (l_max T) (r_max T) (l_max T).
(** test_util_math.cpp lines 145-164. *)
Definition m_add_min_max (T : math_type) :=
  expect (m_add T) (l_min T) (r_max T)
    (if l_signed T then l_cast T (-1) else if r_signed T then l_cast T (r_max T) else l_max T).
(** test_util_math.cpp lines 166-172. *)
Definition m_add_min_min (T : math_type) := expect (m_add T) (l_min T) (r_min T) (l_min T).
(** test_util_math.cpp lines 174-193. *)
Definition m_add_max_min (T : math_type) :=
  expect (m_add T) (l_max T) (r_min T)
    (if l_signed T then l_cast T (-1)
     else if r_signed T then l_max T - (Z.shiftr (l_max T) 1 + 1) else l_max T).
(** test_util_math.cpp lines 195-215. *)
Definition m_add_max_min_plus_one (T : math_type) :=
  expect (m_add T) (l_max T) (r_min T + 1)
    (if l_signed T then 0
     else if r_signed T then l_max T - (Z.shiftr (l_max T) 1 + 2) else l_max T).
(** test_util_math.cpp lines 217-234. *)
Definition m_add_min_plus_one_min (T : math_type) :=
  expect (m_add T) (l_min T + 1) (r_min T)
    (if l_signed T then l_min T else if r_signed T then 0 else l_min T + 1).
(** test_util_math.cpp lines 236-244. *)
Definition m_add_max_to_zero (T : math_type) := expect (m_add T) 0 (r_max T) (l_cast T (r_max T)).
(** test_util_math.cpp lines 246-252. *)
Definition m_add_zero_to_max (T : math_type) := expect (m_add T) (l_max T) 0 (l_max T).

(** test_util_math.cpp lines 256-272. *)
Definition m_sub_max_max (T : math_type) :=
  expect (m_sub T) (l_max T) (r_max T) (if Bool.eqb (l_signed T) (r_signed T) then 0 else l_max T - r_max T).
(** test_util_math.cpp lines 274-280. *)
Definition m_sub_min_max (T : math_type) := expect (m_sub T) (l_min T) (r_max T) (l_min T).
(** test_util_math.cpp lines 282-298. *)
Definition m_sub_min_min (T : math_type) :=
  expect (m_sub T) (l_min T) (r_min T)
    (if Bool.eqb (l_signed T) (r_signed T) then 0 else Z.shiftr (l_max T) 1 + 1).
(** test_util_math.cpp lines 300-306. *)
Definition m_sub_max_min (T : math_type) := expect (m_sub T) (l_max T) (r_min T) (l_max T).
(** test_util_math.cpp lines 308-324. *)
Definition m_sub_max_min_plus_one (T : math_type) :=
  expect (m_sub T) (l_max T) (r_min T + 1) (if r_signed T then l_max T else l_max T - 1).
(** test_util_math.cpp lines 326-340. *)
Definition m_sub_min_plus_one_min (T : math_type) :=
  expect (m_sub T) (l_min T + 1) (r_min T)
    (if Bool.eqb (r_signed T) (l_signed T) then 1 else Z.shiftr (l_max T) 1 + 2).
(** test_util_math.cpp lines 342-352. *)
Definition m_sub_max_from_zero (T : math_type) : outcome bool :=
  let* c := m_sub T 0 (r_max T) in
  assert (l_min T <=? c) ;;
  let* d := m_sub T c (r_max T) in
  assert (l_min T =? d) ;;
  Ret true.
(** test_util_math.cpp lines 354-361. *)
Definition m_sub_zero_from_max (T : math_type) : outcome bool :=
  let* c := m_sub T (l_max T) 0 in assert (l_max T <=? c) ;; Ret true.

(** The suite SaturatedMathTest without SaturatingSubMaxFromZero (test_util_math.cpp lines 342-352), which is kept apart. *)
Definition math_suite (T : math_type) : list (outcome bool) :=
  [m_saturating_add T; m_saturating_sub T; m_nonsaturating_add T; m_nonsaturating_sub T;
   m_add_max_max T; m_add_min_max T; m_add_min_min T; m_add_max_min T; m_add_max_min_plus_one T;
   m_add_min_plus_one_min T; m_add_max_to_zero T; m_add_zero_to_max T;
   m_sub_max_max T; m_sub_min_max T; m_sub_min_min T; m_sub_max_min T; m_sub_max_min_plus_one T;
   m_sub_min_plus_one_min T; m_sub_zero_from_max T].

(** * lvs/media/can_frame.hpp, for TypeParam = Frame<mtu, fm> *)

(** can_frame.hpp lines 86-89: the loop of Initialization. *)
Definition all_zero (bytes : list Z) : bool := forallb (fun b => b =? 0) bytes.

(** can_frame.hpp lines 80-90: Initialization. *)
Definition f_initialization (mtu : nat) : outcome bool :=
  let f := frame_default mtu in
  assert (0 =? fid f) ;;
  assert (0 =? getDLC f) ;;
  assert (0 =? fts f) ;;
  assert all_zero (firstn mtu (fdata f)) ;;
  Ret true.

(** can_frame.hpp lines 104-107: the loop of InitWithData. Reading instance.data beyond the MTU is undefined. *)
Fixpoint counts_up (n : nat) (i : Z) (bytes : list Z) : outcome bool :=
  match n with
  | O => Ret true
  | S k => match bytes with
           | [] => UB
           | b :: rest => assert (i =? b) ;; counts_up k (i + 1) rest
           end
  end.
(** can_frame.hpp lines 95-108: InitWithData. *)
Definition f_init_with_data (mtu : nat) : outcome bool :=
  let* f := frame_make_no_ts mtu 1 (Some [0; 1; 2; 3; 4; 5; 6; 7; 8]) 5 in
  assert (1 =? fid f) ;;
  assert (5 =? getDLC f) ;;
  assert (5 =? getDataLength f) ;;
  counts_up (Z.to_nat (getDataLength f)) 0 (fdata f).

(** can_frame.hpp lines 113-119: InitWithData_NullPtr. *)
Definition f_init_null (mtu : nat) : outcome bool :=
  let* f := frame_make_no_ts mtu 1 None 5 in
  assert (1 =? fid f) ;;
  assert (0 =? getDLC f) ;;
  assert (0 =? getDataLength f) ;;
  Ret true.

(** can_frame.hpp lines 128-137: the loop of SetDataLength. [set_loop n] runs the iterations i = n, ..., 64 in order. *)
Fixpoint set_loop (mtu : nat) (is : list Z) (f : frame) : outcome bool :=
  match is with
  | [] => assert (getDataLength f <=? Z.of_nat mtu) ;; Ret true
  | i :: rest =>
      let f := setDataLength mtu f i in
      assert (if i <=? Z.of_nat C2_MaxFrameSizeBytes then i <=? getDataLength f else true) ;;
      set_loop mtu rest f
  end.
(** can_frame.hpp lines 125-138: SetDataLength. *)
Definition f_set_data_length (mtu : nat) : outcome bool :=
  set_loop mtu (map Z.of_nat (seq 0 (FD_MaxFrameSizeBytes + 1))) (frame_default mtu).

(** can_frame.hpp lines 143-149: InitWithDataAndTimestamp. *)
Definition f_init_timestamp (mtu : nat) : outcome bool :=
  let* f := frame_make mtu 1 None 0 32 in
  assert op_eq 32 (fts f) ;;
  Ret true.

(** can_frame.hpp lines 151-180: the recursion of GetDLCTestLoop from 65 down to 0. *)
Fixpoint get_dlc_loop (mtu i : nat) (f : frame) : outcome bool :=
  let f := setDataLength mtu f (Z.of_nat i) in
  match i with
  | O => assert (0 =? getDLC f) ;; Ret true
  | S k =>
      assert (if (i <? mtu)%nat then lengthToDlc mtu (Z.of_nat i) =? getDLC f
              else lengthToDlc mtu (Z.of_nat mtu) =? getDLC f) ;;
      get_dlc_loop mtu k f
  end.
(** can_frame.hpp lines 185-189: GetDLC. *)
Definition f_get_dlc (mtu : nat) : outcome bool := get_dlc_loop mtu (FD_MaxFrameSizeBytes + 1) (frame_default mtu).

(** can_frame.hpp lines 195-201: DLCToLengthEvil. *)
Definition f_evil : outcome bool :=
  assert (0 =? dlcToLength (Z.of_nat FD_MaxFrameSizeBytes)) ;; Ret true.

(** can_frame.hpp lines 206-219: PriorityHigherThan. *)
Definition f_priority_higher (mtu : nat) : outcome bool :=
  let* l := frame_make_no_ts mtu 0 (Some [0]) 1 in
  let* r := frame_make_no_ts mtu 1 (Some [0]) 1 in
  assert priorityHigherThan l r ;;
  assert negb (priorityHigherThan r l) ;;
  assert negb (priorityHigherThan l l) ;;
  assert frame_gt l r ;;
  assert negb (frame_gt r l) ;;
  assert negb (frame_gt l l) ;;
  Ret true.
(** can_frame.hpp lines 224-237: PriorityLowerThan. *)
Definition f_priority_lower (mtu : nat) : outcome bool :=
  let* l := frame_make_no_ts mtu 0 (Some [0]) 1 in
  let* r := frame_make_no_ts mtu 1 (Some [0]) 1 in
  assert priorityLowerThan r l ;;
  assert negb (priorityLowerThan l r) ;;
  assert negb (priorityLowerThan l l) ;;
  assert negb (frame_lt l r) ;;
  assert frame_lt r l ;;
  assert negb (frame_lt l l) ;;
  Ret true.

(** can_frame.hpp lines 244-245, 257 and 274-275. *)
Definition fake_data : list Z := [0; 1; 2; 3; 5; 6; 7; 8].
(** can_frame.hpp lines 242-250: FrameEqual. *)
Definition f_equal_frames (mtu : nat) (fm : Z) : outcome bool :=
  let* l := frame_make_no_ts mtu 0xFFFFFFFF (Some fake_data) 8 in
  let* r := frame_make_no_ts mtu 0x1FFFFFFF (Some fake_data) 8 in
  let* e := frame_eq fm l r in
  assert e ;;
  Ret true.
(** can_frame.hpp lines 255-267: FrameNotEqual. ASSERT_NE uses operator!=. *)
Definition f_not_equal (mtu : nat) (fm : Z) : outcome bool :=
  let* base := frame_make_no_ts mtu 0x1FFFFFFF (Some fake_data) 8 in
  let* len := frame_make_no_ts mtu 0x1FFFFFFF (Some fake_data) 7 in
  let* dat := frame_make_no_ts mtu 0x1FFFFFFF (Some [0; 1; 2; 3; 5; 6; 7; 9]) 8 in
  let* idd := frame_make_no_ts mtu 0x1FFFFFF1 (Some fake_data) 8 in
  let* e := frame_ne fm base len in
  assert e ;;
  let* e := frame_ne fm base dat in
  assert e ;;
  let* e := frame_ne fm base idd in
  assert e ;;
  Ret true.
(** can_frame.hpp lines 272-280: FrameNotEqualWithFlags. *)
Definition f_not_equal_flags (mtu : nat) : outcome bool :=
  let* l := frame_make_no_ts mtu 0xFFFFFFFF (Some fake_data) 8 in
  let* r := frame_make_no_ts mtu 0x1FFFFFFF (Some fake_data) 8 in
  let* e := frame_ne 1 l r in
  assert e ;;
  Ret true.

(** can_frame.hpp lines 284-296: the test cases of the suite FrameTest. *)
Definition frame_tests (mtu : nat) (fm : Z) : list (outcome bool) :=
  [f_initialization mtu; f_init_with_data mtu; f_init_null mtu; f_init_timestamp mtu; f_set_data_length mtu;
   f_get_dlc mtu; f_evil; f_priority_higher mtu; f_priority_lower mtu; f_equal_frames mtu fm; f_not_equal mtu fm;
   f_not_equal_flags mtu].

(** The suite FrameTest instantiated for Frame<mtu, fm>; [None]: it does not compile. GetDLC (can_frame.hpp lines 185-189) passes
    the frame to a function whose parameter is a Frame<MTUBytes>& (lines 157 and 175), a frame with the default mask 0
    (libuavcan/media/can.hpp line 144). *)
Definition frame_suite (mtu : nat) (fm : Z) : option (list (outcome bool)) :=
  if fm =? 0 then Some (frame_tests mtu fm) else None.

(** * lvs/platform/memory.hpp, for TypeParam = PoolAllocator<n, bs, T> *)

(** LVS_ASSERT_THROW_IF_EXCEPTIONS_OR_VALUE(allocate(...), std::bad_alloc, nullptr), lvs/lvs.hpp lines 40-54. *)
Definition is_refusal (exc : bool) (o : obs) : bool :=
  match o with
  | OThrow => exc
  | OPtr Null => negb exc
  | _ => false
  end.

(** [p = allocate(size); ASSERT_NE(nullptr, p)]: an exception also ends the test case. memory.hpp lines 118-119. *)
Definition got_block (o : obs) : option ptr :=
  match o with
  | OPtr Null => None
  | OPtr q => Some q
  | _ => None
  end.

(** memory.hpp lines 75-83: AllocTooLargeBlock; [size_max] is the largest std::size_t. The spurious failures of the weak
    compare-exchange are arbitrary: [sp i] of them hit the i-th allocation of a test case. This and the other test cases get the
    pool as it is when they start and leave it behind: all allocators of a TypeParam use one pool (libuavcan/platform/memory.hpp
    line 135), so a test case finds what the previous ones left. *)
Definition p_too_large (bs size_max : Z) (exc : bool) (sp : nat -> nat) (p : pool) : outcome (bool * pool) :=
  if bs <? size_max
  then let* r := step bs exc (Alloc (bs + 1) (sp 0%nat)) p in Ret (is_refusal exc (fst r), snd r)
  else Ret (true, p).

(** memory.hpp lines 88-93: DeallocateNull. *)
Definition p_dealloc_null (bs : Z) (exc : bool) (p : pool) : outcome (bool * pool) :=
  let* r := step bs exc (Free Null) p in Ret (true, snd r).

(** Allocate, assert that a block came back, deallocate it. memory.hpp lines 101-104 and 153-159. *)
Definition p_alloc_dealloc (bs : Z) (exc : bool) (size : Z) (k : nat) (p : pool) : outcome (bool * pool) :=
  let* r := step bs exc (Alloc size k) p in
  match got_block (fst r) with
  | None => Ret (false, snd r)
  | Some q => let* r2 := step bs exc (Free q) (snd r) in Ret (true, snd r2)
  end.

(** memory.hpp lines 116-120 and 129-133: fill the array of allocations; [i] counts allocations made before. [None]: an assertion
    failed, and the blocks allocated until then stay allocated. *)
Fixpoint p_alloc_all (bs : Z) (exc : bool) (sp : nat -> nat) (i count : nat) (p : pool)
  : outcome (option (list ptr) * pool) :=
  match count with
  | O => Ret (Some [], p)
  | S c =>
      let* r := step bs exc (Alloc bs (sp i)) p in
      match got_block (fst r) with
      | None => Ret (None, snd r)
      | Some q =>
          let* rest := p_alloc_all bs exc sp (S i) c (snd r) in
          Ret (match fst rest with Some qs => Some (q :: qs) | None => None end, snd rest)
      end
  end.

(** memory.hpp lines 124-127 and 137-140: deallocate the array, in order. *)
Fixpoint p_free_all (bs : Z) (exc : bool) (qs : list ptr) (p : pool) : outcome pool :=
  match qs with
  | [] => Ret p
  | q :: rest => let* r := step bs exc (Free q) p in p_free_all bs exc rest (snd r)
  end.

(** memory.hpp lines 116-127, repeated by 129-140. *)
Definition p_fill_and_empty (n : nat) (bs : Z) (exc : bool) (sp : nat -> nat) (i : nat) (p : pool)
  : outcome (bool * pool) :=
  let* a := p_alloc_all bs exc sp i n p in
  match fst a with
  | None => Ret (false, snd a)
  | Some qs =>
      let* r := step bs exc (Alloc bs (sp (i + n)%nat)) (snd a) in
      if is_refusal exc (fst r)
      then let* p := p_free_all bs exc qs (snd r) in Ret (true, p)
      else Ret (false, snd r)
  end.

(** memory.hpp lines 111-141: AllocTillOutOfMemoryThenDealloc. *)
Definition p_exhaust (n : nat) (bs : Z) (exc : bool) (sp : nat -> nat) (p : pool) : outcome (bool * pool) :=
  let* a := p_fill_and_empty n bs exc sp 0 p in
  if fst a then p_fill_and_empty n bs exc sp (n + 1) (snd a) else Ret a.

(** memory.hpp lines 151-160: the loop of AllocThenDeallocContinuously. *)
Fixpoint p_cycle (bs : Z) (exc : bool) (sp : nat -> nat) (i count : nat) (p : pool) : outcome (bool * pool) :=
  match count with
  | O => Ret (true, p)
  | S c =>
      let* r := p_alloc_dealloc bs exc bs (sp i) p in
      if fst r then p_cycle bs exc sp (S i) c (snd r) else Ret r
  end.

(** The test cases of the suite PoolAllocatorTest, memory.hpp lines 163-168. *)
Inductive pool_test : Type :=
  | AllocTooLargeBlock | DeallocateNull | AllocDealloc | AllocTillOutOfMemoryThenDealloc | AllocThenDeallocContinuously.

(** One of them: memory.hpp lines 75-83, 88-93, 98-105, 111-141 and 147-161. *)
Definition run_test (n : nat) (bs size_max : Z) (exc : bool) (c : pool_test) (sp : nat -> nat) (p : pool)
  : outcome (bool * pool) :=
  match c with
  | AllocTooLargeBlock => p_too_large bs size_max exc sp p
  | DeallocateNull => p_dealloc_null bs exc p
  | AllocDealloc => p_alloc_dealloc bs exc 1 (sp 0%nat) p
  | AllocTillOutOfMemoryThenDealloc => p_exhaust n bs exc sp p
  | AllocThenDeallocContinuously => p_cycle bs exc sp 0 (n * 2 + 1) p
  end.

(** Test cases one after another, in one process: memory.hpp lines 163-168 in any order and number (gtest can shuffle and repeat
    them, and TypeParams that differ in T only have the same pool). The verdicts and the pool that is left. *)
Fixpoint run_tests (n : nat) (bs size_max : Z) (exc : bool) (cs : list (pool_test * (nat -> nat))) (p : pool)
  : outcome (list bool * pool) :=
  match cs with
  | [] => Ret ([], p)
  | (c, sp) :: rest =>
      let* r := run_test n bs size_max exc c sp p in
      let* r2 := run_tests n bs size_max exc rest (snd r) in
      Ret (fst r :: fst r2, snd r2)
  end.
