(** Specification: a call of select ended as the function of its arguments and of the answer of ppoll alone says. *)
From Coq Require Import ZArith Bool List.
From Verif Require Import Outcome ResultModel CInt SocketCanModel GroupModel PollModel.
Open Scope Z_scope.

Definition answers_as (P : platform) (g : group) (c : scall) (e : ended) : Prop :=
  match e with
  | Returned r req => select P (sc_ppoll c) g (sc_timeout c) (sc_ignore c) = Ret (r, req)
  | Thrown => False
  end.
