(** Specification vocabulary for the loopback test. *)
From Coq Require Import ZArith Bool String List Sorted.
From Verif Require Import Outcome ResultModel CanFrameModel SocketCanModel SocketCanSpec GroupModel ManagerModel ManagerSpec LoopBackModel.
Import ListNotations.
Open Scope Z_scope.

(** The rounds before the timeout. *)
Fixpoint in_time (rounds : list round) : list round :=
  match rounds with
  | [] => []
  | rn :: rest => if rn_timed_out rn then [] else rn :: in_time rest
  end.

(** In one of the rounds, the kernel delivered on interface [i] a frame that is no error message, with this identifier and
    without data. *)
Definition arrived (rounds : list round) (i : nat) (id : Z) : Prop :=
  exists rn res errno msgs km, In rn rounds /\ rn_recv rn i = (res, errno, msgs) /\ 0 < res /\ In km msgs /\
    is_error (km_id km) = false /\ identifier (km_id km) = id /\ km_len km = 0.

(** Both test frames, those with the identifiers 1 and 2, arrived on each of [n] interfaces, and there are interfaces. *)
Definition all_arrived (rounds : list round) (n : nat) : Prop :=
  (0 < n)%nat /\ forall i, (i < n)%nat -> arrived rounds i 1 /\ arrived rounds i 2.

(** The kernel keeps its promises to recvmmsg in every round, on each of [n] interfaces. *)
Definition rounds_ok (n : nat) (rounds : list round) : Prop :=
  Forall (fun rn => forall i, (i < n)%nat -> let '(res, errno, msgs) := rn_recv rn i in recv_ok res msgs) rounds.

(** The message asking for a frame with the 29-bit identifier [id] and no data; bit 31 marks it as an extended frame. *)
Definition test_message (id : Z) : canfd := CanFd (2 ^ 31 + id) 0 (repeat 0 64).

(** Every message of [sents], which lists what was sent on each interface, comes back on its interface in one of the rounds. *)
Definition looped_back (rounds : list round) (sents : list (list canfd)) : Prop :=
  forall i cs c, nth_error sents i = Some cs -> In c cs ->
  exists rn res errno msgs cms cl, In rn rounds /\ rn_recv rn i = (res, errno, msgs) /\ 0 < res /\ In (looped c cms cl) msgs.

(** [ans] are the kernel's answers to the attempts on [names], in turn, in the course of the history [tr']. *)
Definition answered (kernel : nat -> list event -> answers) (names : list string) (tr' : list event) (ans : list answers) : Prop :=
  length ans = length names /\ forall t a, nth_error ans t = Some a -> answered_during kernel t tr' a.

(** [ups] are the positions of the names whose interfaces came up, in order. *)
Definition up_positions (m : manager) (ans : list answers) (ups : list nat) : Prop :=
  StronglySorted lt ups /\
  forall t, In t ups <-> exists name a, nth_error (m_required m) t = Some name /\ nth_error ans t = Some a /\
                                        comes_up m (Some [Filter 0 0]) 1 name a.

(** The kernel takes at least one of the two test frames on each of [n] interfaces. *)
Definition accepted (send : nat -> list canfd -> Z * Z) (n : nat) : Prop :=
  forall k, (k < n)%nat -> 0 < fst (send k [test_message 1; test_message 2]).
