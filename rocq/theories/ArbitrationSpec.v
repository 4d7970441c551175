(** * What the bus does with the frames of several nodes (C151)

    A CAN bus and nodes that keep the frames they have to send in priority queues. Nothing in this file is code of /repo
    except [frame_lt] (can.hpp lines 423-426, [operator<]), the order of the queues, and the frame's identifier. *)
From Coq Require Import ZArith List Bool.
From Verif Require Import Outcome CanFrameModel CanFrameSpec.
Import ListNotations.
Open Scope Z_scope.

(** The arbitration field of a data frame with an extended identifier, as ISO 11898-1 has it: the upper 11 identifier bits,
    the recessive bits SRR and IDE, the lower 18 identifier bits, and a dominant bit (RTR, or RRS in FD frames).
    Recessive is 1 ([true]). *)
Definition wire_bits (f : frame) : list bool :=
  firstn 11 (id_bits (fid f)) ++ [true; true] ++ skipn 11 (id_bits (fid f)) ++ [false].

(** [n] bit times, from the [k]th bit on, with the contenders [l]: the bus is recessive only if all send recessive bits,
    and those who send recessive and see dominant stop sending. *)
Fixpoint contest {A : Type} (bits : A -> list bool) (n k : nat) (l : list A) : list A :=
  match n with
  | O => l
  | S n' =>
      let bus := forallb (fun x => nth k (bits x) true) l in
      contest bits n' (S k) (List.filter (fun x => Bool.eqb (nth k (bits x) true) bus) l)
  end.

(** The nodes that are still sending after the arbitration field, each with its frame. *)
Definition winners (offers : list (nat * frame)) : list (nat * frame) :=
  contest (fun o => wire_bits (snd o)) 32 0 offers.

(** The top of a [std::priority_queue] of frames: some element that is less than no other. Elements with the same
    identifier may be taken in any order. *)
Definition is_top (q : list frame) (f : frame) : Prop := In f q /\ forall g, In g q -> frame_lt f g = false.

(** Each node that has frames offers the top of its queue. *)
Definition offering (s : list (list frame)) (o : list (nat * frame)) : Prop :=
  NoDup (map fst o) /\
  (forall i f, In (i, f) o -> exists q, nth_error s i = Some q /\ is_top q f) /\
  (forall i q, nth_error s i = Some q -> q <> [] -> exists f, In (i, f) o).

(** What happens: a node puts a frame into its queue; a node sends its frame, having won the arbitration alone. *)
Inductive event := Queued (i : nat) (f : frame) | Sent (i : nat) (f : frame).

Inductive step : list (list frame) -> event -> list (list frame) -> Prop :=
| step_queue : forall s i q f, nth_error s i = Some q -> step s (Queued i f) (replace_nth i (f :: q) s)
| step_send : forall s o i f q1 q2,
    offering s o -> winners o = [(i, f)] -> nth_error s i = Some (q1 ++ f :: q2) ->
    step s (Sent i f) (replace_nth i (q1 ++ q2) s).

Inductive steps : list (list frame) -> list event -> list (list frame) -> Prop :=
| steps_none : forall s, steps s [] s
| steps_more : forall s e s1 h s2, step s e s1 -> steps s1 h s2 -> steps s (e :: h) s2.

(** Two nodes send at once: both have won the arbitration. *)
Definition collision (s : list (list frame)) : Prop := exists o, offering s o /\ (2 <= length (winners o))%nat.

(** The 29 bits of an identifier. *)
Definition can_id (f : frame) : Z := fid f mod 2 ^ 29.

(** No two nodes send the same identifier: [owner] says whose it is. (UAVCAN puts the node's number into it.) *)
Definition queues_own (owner : Z -> nat) (s : list (list frame)) : Prop :=
  forall i q f, nth_error s i = Some q -> In f q -> owner (can_id f) = i.
Definition history_owns (owner : Z -> nat) (h : list event) : Prop :=
  forall i f, In (Queued i f) h -> owner (can_id f) = i.

(** The frames waiting anywhere, those sent and those queued in a history. *)
Definition waiting (s : list (list frame)) : list frame := concat s.
Definition sent (h : list event) : list frame := flat_map (fun e => match e with Sent _ f => [f] | _ => [] end) h.
Definition queued (h : list event) : list frame := flat_map (fun e => match e with Queued _ f => [f] | _ => [] end) h.
