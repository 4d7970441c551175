(** Model of configureFilters of test/linux/example/media_on_linux/SocketCANInterfaceGroup.cpp for every length of the array, with
    the 32-bit loop counter and the vector that grows. GroupModel.v and OomModel.v have it for lengths below 2^32. *)
From Coq Require Import ZArith Bool String List.
From Verif Require Import Outcome ResultModel CanFrameModel SocketCanModel GroupModel OomModel.
Import ListNotations.
Open Scope Z_scope.

(** What emplace_back of SocketCANInterfaceGroup.cpp line 181 may throw. *)
Inductive thrown : Type := BadAlloc | LengthError.

(** libstdc++: max_size() of the vector of SocketCANInterfaceGroup.cpp line 164 is PTRDIFF_MAX / sizeof(can_filter). *)
Definition vector_max_size : Z := (2 ^ 63 - 1) / sizeof_can_filter.

(** SocketCANInterfaceGroup.cpp lines 177-183. [num] is a std::size_t and [i] an unsigned, of 32 bits. [fails n]: there is no memory
    for one more when the vector has [n] elements. [fuel] bounds the iterations; [None] says that they did not suffice. *)
Fixpoint convert_loop (fails : Z -> bool) (fuel : nat) (i num : Z) (configs : list filter) (socket_filters : list kfilter)
  : option (outcome (ended (list kfilter) thrown)) :=
  match fuel with
  | O => None
  | S k =>
      if i <? num
      then match nth_error configs (Z.to_nat i) with
           | None => Some UB
           | Some fc =>
               let size := Z.of_nat (length socket_filters) in
               if size =? vector_max_size then Some (Ret (Threw LengthError))
               else if fails size then Some (Ret (Threw BadAlloc))
               else convert_loop fails k ((i + 1) mod 2 ^ 32) num configs
                      (socket_filters ++
                       [KFilter (Z.lor (Z.land (flt_id fc) MaskExtID) CAN_EFF_FLAG) (Z.lor (flt_mask fc) CAN_EFF_FLAG)])
           end
      else Some (Ret (Returned socket_filters))
  end.

(** SocketCANInterfaceGroup.cpp lines 155-199. *)
Definition configure_any (fails : Z -> bool) (fuel : nat) (ans : list kfilter -> Z -> Z) (fd : Z) (configs : option (list filter))
  (num_configs : Z) (log : filter_log) : option (outcome (ended (result * filter_log) (thrown * filter_log))) :=
  if (match configs with None => true | Some _ => false end) && negb (num_configs =? 0) && (num_configs <=? CAN_RAW_FILTER_MAX)
  then Some (Ret (Returned (BadArgument, log)))
  else if num_configs =? 0
  then if negb (ans [] 0 =? 0) then Some (Ret (Returned (UnknownInternalError, log)))
       else Some (Ret (Returned (Success, install fd [] 0 log)))
  else
    match configs with
    | None => Some UB
    | Some cs =>
        match convert_loop fails fuel 0 num_configs cs [] with
        | None => None
        | Some UB => Some UB
        | Some (Ret (Threw e)) => Some (Ret (Threw (e, log)))
        | Some (Ret (Returned fs)) =>
            let optlen := (sizeof_can_filter * Z.of_nat (length fs)) mod 2 ^ 32 in
            if negb (ans fs optlen =? 0) then Some (Ret (Returned (UnknownInternalError, log)))
            else Some (Ret (Returned (Success, install fd fs optlen log)))
        end
    end.
