(** Model of the checks the compiler makes on template arguments (static_assert and overload resolution) in
    libuavcan/include/libuavcan/time.hpp, media/can.hpp, media/interfaces.hpp, platform/memory.hpp and util/math.hpp, and of
    the compile tests in test/compile. Of the warnings that the project's builds turn into errors, those about arrays of no elements and about
    private members that are not used (clang) are modelled. *)
From Coq Require Import ZArith Bool List.
From Verif Require Import Outcome CanFrameModel PoolModel ContainerModel.
Import ListNotations.
Open Scope Z_scope.

(** The scalar types of C++ that can be given as USecT: zero must be convertible to it (time.hpp lines 68 and 245). *)
Inductive ctype : Type :=
  | Bool | Char | SChar | UChar | WChar | Char16 | Char32 | Short | UShort | Int | UInt | Long | ULong | LLong | ULLong
  | Float | Double | LDouble | Pointer.

Scheme Equality for ctype.

(** What the compiler and its target choose. What time.hpp lines 70-72 and 247-255 depend on. *)
Record target : Type := Target {
  size_of : ctype -> Z; char_signed : bool; wchar_signed : bool;
  zero_arrays : bool   (* arrays of no elements are taken, which C++ forbids; not with -pedantic and -Werror, native_common.cmake lines 16-19 *)
}.

(** std::is_integral. Used at math.hpp lines 37-239. *)
Definition is_integral (t : ctype) : bool :=
  match t with Float | Double | LDouble | Pointer => false | _ => true end.

(** std::is_signed: of an arithmetic type, that it has a value less than zero; floating point types are signed, all other
    types are not. Used at time.hpp lines 72 and 249 and math.hpp lines 37-239. *)
Definition is_signed (T : target) (t : ctype) : bool :=
  match t with
  | Char => char_signed T
  | WChar => wchar_signed T
  | SChar | Short | Int | Long | LLong | Float | Double | LDouble => true
  | _ => false
  end.

(** What is instantiated and used such that the checks take place.
    time.hpp lines 67-73 and 244-256, interfaces.hpp lines 57-64, can.hpp lines 144-148, memory.hpp lines 91-96 and 227-229. *)
Inductive instantiation : Type :=
  | IDuration (usec : ctype) (size : Z)
      (* an object of a class derived from duration::Base<_, usec> of this sizeof is constructed, time.hpp lines 67-73 *)
  | ITime (dtype : option ctype) (usec : ctype) (size : Z)
      (* the same for time::Base<_, DType, usec>, lines 244-256; DType::MicrosecondType, None if there is no such member *)
  | IGroup (tx rx : nat)             (* a class derived from InterfaceGroup<_, tx, rx>, interfaces.hpp lines 57-64 *)
  | IFrame (mtu : nat)               (* Frame<mtu>, can.hpp lines 144-148 *)
  | IPool (n : nat)                  (* a pool of n blocks is constructed, memory.hpp lines 91-96 *)
  | IAllocator (tsz : option Z) (bs : Z).   (* an allocator for objects of this size (void: None), lines 227-229 *)

(** The checks.
    time.hpp lines 70-72 and 247-255, interfaces.hpp lines 63-64, can.hpp lines 147-148, memory.hpp lines 96 and 227-229. *)
Inductive guard : Type :=
  | DurationSize       (* time.hpp lines 70-71 *)
  | DurationSigned     (* line 72 *)
  | TimeSize           (* lines 247-248 *)
  | TimeUnsigned       (* line 249 *)
  | TimeDuration       (* lines 254-255; ill-formed if DType::MicrosecondType is missing *)
  | GroupTx            (* interfaces.hpp line 63 *)
  | GroupRx            (* line 64 *)
  | FrameMtu           (* can.hpp lines 147-148 *)
  | PoolBlocks         (* memory.hpp line 96 *)
  | AllocatorFits.     (* memory.hpp lines 227-229 *)

(** All of time.hpp lines 70-72 and 247-255, interfaces.hpp lines 63-64, can.hpp lines 147-148, memory.hpp lines 96 and 227-229. *)
Definition guards : list guard :=
  [DurationSize; DurationSigned; TimeSize; TimeUnsigned; TimeDuration; GroupTx; GroupRx; FrameMtu; PoolBlocks; AllocatorFits].

(** Whether an instantiation passes a check; a check of another template is not made.
    time.hpp lines 70-72 and 247-255, interfaces.hpp lines 63-64, can.hpp lines 147-148, memory.hpp lines 96 and 227-229. *)
Definition passes (T : target) (g : guard) (i : instantiation) : bool :=
  match g, i with
  | DurationSize, IDuration usec size => size =? size_of T usec
  | DurationSigned, IDuration usec _ => is_signed T usec
  | TimeSize, ITime _ usec size => size =? size_of T usec
  | TimeUnsigned, ITime _ usec _ => negb (is_signed T usec)
  | TimeDuration, ITime (Some m) usec _ => size_of T usec =? size_of T m
  | TimeDuration, ITime None _ _ => false
  | GroupTx, IGroup tx _ => (0 <? tx)%nat
  | GroupRx, IGroup _ rx => (0 <? rx)%nat
  | FrameMtu, IFrame mtu => (mtu <=? FD_MaxFrameSizeBytes)%nat
  | PoolBlocks, IPool n => (0 <? n)%nat
  | AllocatorFits, IAllocator tsz bs => allocator_accepts tsz bs
  | _, _ => true
  end.

(** The arrays of interfaces.hpp lines 120 and 139, can.hpp line 253 and memory.hpp line 81 have elements. *)
Definition arrays_have_elements (i : instantiation) : bool :=
  match i with
  | IGroup tx rx => (0 <? tx)%nat && (0 <? rx)%nat
  | IFrame mtu => (0 <? mtu)%nat
  | IPool n => (0 <? n)%nat
  | _ => true
  end.

(** With the checks of which [there] holds in place, is it compiled? [fun _ => true] is the code as it is.
    The checks are those of [guards] (time.hpp lines 70-72 and 247-255 and others). *)
Definition compiles_with (T : target) (there : guard -> bool) (i : instantiation) : bool :=
  forallb (fun g => negb (there g) || passes T g i) guards && (zero_arrays T || arrays_have_elements i).
(** The code as it is: all checks of [guards] (time.hpp lines 70-72 and 247-255 and others). *)
Definition compiles (T : target) (i : instantiation) : bool := compiles_with T (fun _ => true) i.

(** Which overload a call of saturating_add or saturating_sub (math.hpp lines 73-76 and 118-121, 161-164 and 187-190,
    236-241 and 210-215: the same conditions for both) with arguments of these types selects. The first two deduce one type
    from both arguments. *)
Inductive overload : Type := OSigned | OUnsigned | OMixed.
(** math.hpp lines 73-76 and 118-121, 161-164 and 187-190, 236-241 and 210-215. *)
Definition saturating_overload (T : target) (l r : ctype) : option overload :=
  if ctype_beq l r && is_integral l && is_signed T l then Some OSigned
  else if ctype_beq l r && is_integral l && negb (is_signed T l) then Some OUnsigned
  else if is_integral l && negb (is_signed T l) && is_integral r && is_signed T r then Some OMixed
  else None.

(** time.hpp lines 177-185 and 352-360: is [a + b] (or [a - b]) of two durations, of a time and a duration compiled? The
    result is made by fromMicrosecond, which constructs an object (lines 111-116 and 294-299). *)
Definition adds (T : target) (i : instantiation) : bool :=
  compiles T i &&
  match i with
  | IDuration usec _ => match saturating_overload T usec usec with Some _ => true | None => false end
  | ITime (Some m) usec _ => match saturating_overload T usec m with Some _ => true | None => false end
  | _ => false
  end.

(** can.hpp lines 175-203 with its array accesses checked. *)
Definition lookup (l : list Z) (i : Z) : outcome Z :=
  if i <? 0 then UB else match nth_error l (Z.to_nat i) with Some x => Ret x | None => UB end.
(** can.hpp lines 175-203. *)
Definition lengthToDlc_checked (mtu : nat) (length : Z) : outcome Z :=
  if Z.of_nat mtu <? length
  then lookup length_to_dlc_lookup (Z.of_nat mtu)
  else lookup length_to_dlc_lookup length.

(** memory.hpp lines 91-107 with its array accesses checked: NumBlocksParam - 1 is a std::size_t of [bits] bits. *)
Definition store (i : Z) (c : cell) (m : list cell) : outcome (list cell) :=
  if (0 <=? i) && (i <? Z.of_nat (length m)) then Ret (replace_nth (Z.to_nat i) c m) else UB.
(** memory.hpp lines 101-106. *)
Fixpoint init_loop_checked (i : nat) (next : ptr) (m : list cell) : outcome (list cell) :=
  match i with
  | O => Ret m
  | S i' => let* m' := store (Z.of_nat i') (CNext next) m in init_loop_checked i' (At i') m'
  end.
(** memory.hpp lines 91-107. *)
Definition pool_init_checked (bits : Z) (n : nat) : outcome pool :=
  let last := (Z.of_nat n - 1) mod 2 ^ bits in
  let* m := store last (CNext Null) (repeat (CData 0) n) in
  let* m := init_loop_checked (n - 1) (At (n - 1)) m in
  Ret (Pool m (At 0)).

(** A program of test/compile: what it instantiates, and whether that has a private member that nothing uses (test_time_001.cpp line 11). *)
Record test_program : Type := TestProgram { tp_what : instantiation; tp_unused : bool }.
(** The programs of test/compile. int64_t is [i64], int32_t's unsigned counterpart [u32] and so on; a class with a further
    member of one byte is larger by [pad], at least 1. test_time_001.cpp lines 9-20 and the other files. *)
Definition test_programs (T : target) (i64 u64 u32 : ctype) (pad : Z) : list test_program :=
  [TestProgram (IDuration i64 (size_of T i64 + pad)) true;            (* test_time_001.cpp lines 9-20 *)
   TestProgram (IDuration u32 (size_of T u32)) false;                 (* test_time_002.cpp *)
   TestProgram (ITime (Some i64) u64 (size_of T u64 + pad)) true;     (* test_time_003.cpp *)
   TestProgram (ITime (Some i64) i64 (size_of T i64)) false;          (* test_time_004.cpp *)
   TestProgram (ITime (Some i64) u32 (size_of T u32)) false;          (* test_time_005.cpp *)
   TestProgram (ITime None u64 (size_of T u64)) false;                (* test_time_006.cpp: DType is int64_t itself *)
   TestProgram (IGroup 4 0) false;                                    (* test_media_interfaces_001.cpp *)
   TestProgram (IGroup 0 4) false;                                    (* test_media_interfaces_002.cpp *)
   TestProgram (IFrame 65) false].                                    (* test_media_can_001.cpp *)

(** How the programs are built, compile_tests.cmake lines 20-36: by which generator, with which compiler and flags. *)
Record build : Type := Build {
  b_target : target;
  b_makefiles : bool;         (* the generator's tool knows --always-make (line 35), as GNU make does and ninja does not *)
  b_unused_rejected : bool;   (* private members that are not used are errors, as for clang with -Wall and -Werror *)
  b_links : bool              (* a program with an empty main can be linked with the flags of the build *)
}.
(** compile_tests.cmake lines 27-36: does the command of a test succeed? *)
Definition command_succeeds (b : build) (there : guard -> bool) (p : test_program) : bool :=
  b_makefiles b && compiles_with (b_target b) there (tp_what p) && negb (tp_unused p && b_unused_rejected b) && b_links b.
(** compile_tests.cmake lines 27-42 and 46-55: WILL_FAIL; each test passes iff its command fails. *)
Definition compile_tests_pass (b : build) (there : guard -> bool) (i64 u64 u32 : ctype) (pad : Z) : bool :=
  forallb (fun p => negb (command_succeeds b there p)) (test_programs (b_target b) i64 u64 u32 pad).
