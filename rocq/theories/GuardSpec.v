(** What the documentation of the templates asks of their arguments. *)
From Coq Require Import ZArith Bool List.
From Verif Require Import Outcome GuardModel.
Import ListNotations.
Open Scope Z_scope.

(** Integer types with and without negative values; char and wchar_t are one or the other. *)
Definition signed_integer (T : target) (t : ctype) : Prop :=
  In t [SChar; Short; Int; Long; LLong] \/ (t = Char /\ char_signed T = true) \/ (t = WChar /\ wchar_signed T = true).
Definition unsigned_integer (T : target) (t : ctype) : Prop :=
  In t [UChar; UShort; UInt; ULong; ULLong; Char16; Char32] \/
  (t = Char /\ char_signed T = false) \/ (t = WChar /\ wchar_signed T = false).
Definition floating (t : ctype) : Prop := In t [Float; Double; LDouble].

(** time.hpp lines 47-56 and 226-236: "durations are signed integers", "must be an empty type", "this type must be unsigned";
    interfaces.hpp lines 47-54: "this value must be > 0"; the others by the messages of the checks. *)
Definition documented (T : target) (i : instantiation) : Prop :=
  match i with
  | IDuration usec size => size = size_of T usec /\ signed_integer T usec
  | ITime dtype usec size => size = size_of T usec /\ unsigned_integer T usec /\
      exists m, dtype = Some m /\ signed_integer T m /\ size_of T m = size_of T usec
  | IGroup tx rx => (0 < tx)%nat /\ (0 < rx)%nat
  | IFrame mtu => (mtu <= 64)%nat
  | IPool n => (0 < n)%nat
  | IAllocator (Some tsz) bs => tsz <= bs
  | IAllocator None bs => 0 < bs
  end.

(** Targets on which the compile tests make sense: int64_t and uint64_t have one size, uint32_t another. *)
Definition test_types (T : target) (i64 u64 u32 : ctype) : Prop :=
  signed_integer T i64 /\ unsigned_integer T u64 /\ unsigned_integer T u32 /\
  size_of T i64 = size_of T u64 /\ size_of T u32 <> size_of T i64.

(** The checks whose loss a build's compile tests notice. *)
Definition noticed (b : build) (g : guard) : Prop :=
  match g with
  | DurationSize | TimeSize => b_unused_rejected b = false
  | GroupTx | GroupRx => zero_arrays (b_target b) = true
  | PoolBlocks | AllocatorFits => False
  | DurationSigned | TimeUnsigned | TimeDuration | FrameMtu => True
  end.
