(** Specification vocabulary for the clock and the console of the loopback test. *)
From Coq Require Import ZArith Bool String List Sorted.
From Verif Require Import Outcome ResultModel CanFrameModel SocketCanModel SocketCanSpec GroupModel LoopBackModel LoopBackSpec TimedModel.
Import ListNotations.
Open Scope Z_scope.

(** A clock that never goes back: its readings, when the test started, when it began to run, and twice in every iteration. *)
Definition readings (started last : Z) (ticks : list tick) : list Z :=
  started :: last :: flat_map (fun k => [tk_check k; tk_now k]) ticks.
Definition steady (started last : Z) (ticks : list tick) : Prop :=
  StronglySorted Z.le (readings started last ticks) /\ Forall (fun t => 0 <= t < 2 ^ 63) (readings started last ticks).

(** The iterations that begin at most [seconds] seconds after the start. *)
Definition within (seconds started : Z) (ticks : list tick) : list tick :=
  List.filter (fun k => tk_check k - started <=? seconds * 1000000000) ticks.

(** What the kernel delivers in the iterations, as the vocabulary of the loopback test has it. *)
Definition deliveries (ticks : list tick) : list round := map (fun k => Round false (tk_recv k)) ticks.

(** The kernel keeps its promises to recvmmsg in every iteration, on each of [n] interfaces. *)
Definition ticks_ok (n : nat) (ticks : list tick) : Prop :=
  Forall (fun k => forall i, (i < n)%nat -> let '(res, errno, msgs) := tk_recv k i in recv_ok res msgs) ticks.

(** Interfaces as they are after start_test: nothing was received yet. *)
Definition unused (s : iface) : Prop := iface_typed s /\ getStatistics s = Stats 0 0 0 0 0 0 0 0 0 0 0.

(** The messages delivered on interface [i]; how many of them are frames that a read hands to its caller (C57). *)
Definition received_on (i : nat) (ticks : list tick) : list kmsg :=
  flat_map (fun k => let '(res, _, msgs) := tk_recv k i in if 0 <? res then msgs else []) ticks.
Definition frames_among (ms : list kmsg) : Z :=
  Z.of_nat (length (List.filter (fun m => negb (is_error (km_id m)) && negb (identifier (km_id m) =? 0)) ms)).

(** The lines of a report say what was received on each interface of the group in [ticks]. *)
Definition accurate (g : group) (ticks : list tick) (lines : list (string * stats)) : Prop :=
  length lines = length g /\
  forall i s, nth_error g i = Some s -> exists st, nth_error lines i = Some (getInterfaceName s, st) /\
    rx_total st = frames_among (received_on i ticks) mod 2 ^ 64 /\
    forall e, counter e st = errors_with (class_bit e) (received_on i ticks) mod 2 ^ 64.
