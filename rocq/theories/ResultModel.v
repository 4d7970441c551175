(** Model of the result codes of libuavcan/include/libuavcan/libuavcan.hpp. *)
From Coq Require Import ZArith Bool.
Open Scope Z_scope.

(** libuavcan.hpp lines 33-96: enum class Result. The underlying type is a signed integer; a [Result] object may hold
    any value of it, so results are modelled by their underlying value and the enumerators are constants. *)
Definition result := Z.
(** libuavcan.hpp line 39. *)
Definition Success : result := 1.
(** libuavcan.hpp line 46. *)
Definition SuccessPartial : result := 2.
(** libuavcan.hpp line 52. *)
Definition SuccessNothing : result := 3.
(** libuavcan.hpp line 57. *)
Definition SuccessTimeout : result := 4.
(** libuavcan.hpp line 63. *)
Definition BufferFull : result := 0.
(** libuavcan.hpp line 68. *)
Definition Failure : result := -1.
(** libuavcan.hpp line 73. *)
Definition BadArgument : result := -2.
(** libuavcan.hpp line 79. *)
Definition UnknownInternalError : result := -3.
(** libuavcan.hpp line 84. *)
Definition OutOfMemory : result := -4.
(** libuavcan.hpp line 89. *)
Definition NotFound : result := -5.
(** libuavcan.hpp line 94. *)
Definition NotImplemented : result := -6.

(** libuavcan.hpp lines 107-110: operator!. *)
Definition result_not (r : result) : bool := r <=? 0.
(** libuavcan.hpp lines 118-121: isSuccess. *)
Definition isSuccess (r : result) : bool := negb (result_not r).
(** libuavcan.hpp lines 129-132: isFailure. *)
Definition isFailure (r : result) : bool := result_not r.
