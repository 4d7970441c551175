(** Model of the validation suite's tests of std::vector (libuavcan_validation_suite/include/lvs/platform/memory.hpp lines
    205-254) as a program runs them: one after the other, in any order and number, in one process, where they share the pool
    with each other and with vectors of the program. The vectors are those of ContainerModel; the suite's is vector 0. *)
From Coq Require Import ZArith Bool List.
From Verif Require Import Outcome CanFrameModel PoolModel PoolBytesModel ContainerModel.
Import ListNotations.
Open Scope Z_scope.

(** The test cases, with what the standard library chooses in each: the capacity that push_back asks for when the vector is
    full, the capacity that reserve(10) asks for, whether shrink_to_fit is honoured. lvs/platform/memory.hpp lines 214-226,
    231-238 and 243-249. *)
Inductive vtest : Type :=
  | TestVector (grow : nat -> nat)
  | TestVectorCapacity (newcap : nat) (honoured : bool)
  | TestEmplace (newcap : nat).

(** Calls up to the first that throws; None: it threw. What is thrown leaves the test's function (lvs/platform/memory.hpp
    lines 216-225, 232-237 and 244-248 catch nothing) and is caught by googletest, for which the test case has failed. *)
Fixpoint vtry (L : layout) (exc : bool) (ops : list vop) (w : world) : outcome (option (list vobs) * world) :=
  match ops with
  | [] => Ret (Some [], w)
  | o :: t =>
      let* (r, w1) := vstep L exc 1 o w in
      match r with
      | VLengthError | VBadAlloc => Ret (None, w1)
      | _ => let* (rs, w2) := vtry L exc t w1 in Ret (option_map (cons r) rs, w2)
      end
  end.

(** The characters read. ASSERT_EQ and ASSERT_STREQ of lvs/platform/memory.hpp lines 224, 225 and 248 compare them. *)
Definition chars (rs : list vobs) : list Z := flat_map (fun r => match r with VElem x => x | _ => [] end) rs.
(** lvs/platform/memory.hpp lines 224, 225 and 248; [exact] are the characters expected. *)
Definition reads_exactly (exact : list Z) (rs : option (list vobs)) : bool :=
  match rs with Some rs => if list_eq_dec Z.eq_dec (chars rs) exact then true else false | None => false end.

(** capacity() of the suite's vector. lvs/platform/memory.hpp lines 235 and 237. *)
Definition capacity (w : world) : nat := match nth_error (wvecs w) 0 with Some v => vcap v | None => 0%nat end.

(** The body of a test case: has it passed? lvs/platform/memory.hpp lines 217-225, 233-237 and 245-248. A failed ASSERT
    leaves the function at once. *)
Definition vbody (L : layout) (exc : bool) (t : vtest) (w : world) : outcome (bool * world) :=
  match t with
  | TestVector grow =>
      let* (rs, w1) := vtry L exc (removelast (test_vector grow)) w in Ret (reads_exactly [104; 104; 101; 108; 108; 111; 0] rs, w1)
  | TestVectorCapacity newcap honoured =>
      let* (rs, w1) := vtry L exc (test_capacity_reserve newcap) w in
      match rs with
      | None => Ret (false, w1)
      | Some _ =>
          if (10 =? capacity w1)%nat
          then let* (rs2, w2) := vtry L exc (test_capacity_shrink honoured) w1 in
               Ret (match rs2 with Some _ => (capacity w2 <=? 10)%nat | None => false end, w2)
          else Ret (false, w1)
      end
  | TestEmplace newcap =>
      let* (rs, w1) := vtry L exc (removelast (test_emplace newcap)) w in Ret (reads_exactly [49] rs, w1)
  end.

(** A test case; its vector is destroyed however the function is left. lvs/platform/memory.hpp lines 217-226, 233-238 and
    245-249. *)
Definition run_vtest (L : layout) (exc : bool) (t : vtest) (w : world) : outcome (bool * world) :=
  let* (ok, w1) := vbody L exc t w in
  let* (_, w2) := vstep L exc 1 (VDestroy 0) w1 in
  Ret (ok, w2).

(** Test cases one after the other. lvs/platform/memory.hpp lines 251-254 register them. *)
Fixpoint run_vtests (L : layout) (exc : bool) (ts : list vtest) (w : world) : outcome (list bool * world) :=
  match ts with
  | [] => Ret ([], w)
  | t :: ts' => let* (b, w1) := run_vtest L exc t w in let* (bs, w2) := run_vtests L exc ts' w1 in Ret (b :: bs, w2)
  end.
