(** * C151: nodes that send by priority share the bus as one queue ordered by priority

    Specification in ArbitrationSpec.v: [wire_bits] is the arbitration field of a frame, [winners] the nodes still sending at
    its end, [step] a node's queueing or sending of a frame, [waiting s] the frames in all queues. *)
From Coq Require Import ZArith List Bool Lia Permutation Sorted.
From Verif Require Import Outcome CanFrameModel CanFrameSpec ArbitrationSpec ArbitrationProofs.
Import ListNotations.
Open Scope Z_scope.

(** Of any number of nodes that start sending together those go on whose frame has none of higher priority among the others. *)
Theorem C151_winners : forall o i f, In (i, f) (winners o) <->
  In (i, f) o /\ forall j g, In (j, g) o -> priorityHigherThan g f = false.
Proof. exact winners_in. Qed.
Print Assumptions C151_winners.

(** What is sent was waiting, and no frame waiting at any node had a higher priority. *)
Theorem C151_highest_first : forall s i f s', step s (Sent i f) s' ->
  In f (waiting s) /\ forall g, In g (waiting s) -> priorityHigherThan g f = false.
Proof. exact sent_highest. Qed.
Print Assumptions C151_highest_first.

(** Two nodes send at once exactly if frames with the same identifier, than which none waiting is more urgent, wait at both. *)
Theorem C151_collision_iff : forall s, collision s <->
  exists i j qi qj f g, i <> j /\ nth_error s i = Some qi /\ nth_error s j = Some qj /\ In f qi /\ In g qj /\
    can_id f = can_id g /\ forall x, In x (waiting s) -> priorityHigherThan x f = false.
Proof. exact collision_exactly. Qed.
Print Assumptions C151_collision_iff.

(** If no identifier is used by two nodes, then after every history there is no collision, and something can be sent as long
    as something waits. *)
Theorem C151_never_stuck : forall owner s h s',
  queues_own owner s -> history_owns owner h -> steps s h s' ->
  ~ collision s' /\ (waiting s' <> [] -> exists i f s'', step s' (Sent i f) s'').
Proof.
  intros owner s h s' OW HO H. pose proof (steps_own owner s h s' H HO OW) as OW'. split.
  - intros C. apply collision_exactly in C. destruct C as (i & j & qi & qj & f & g & NE & Qi & Qj & F & G & EQ & _).
    apply NE. rewrite <- (OW' i qi f Qi F), <- (OW' j qj g Qj G), EQ. reflexivity.
  - apply (progress owner s' OW').
Qed.
Print Assumptions C151_never_stuck.

(** Nothing is lost, invented or sent twice. *)
Theorem C151_account : forall s h s', steps s h s' -> Permutation (sent h ++ waiting s') (queued h ++ waiting s).
Proof. exact steps_account. Qed.
Print Assumptions C151_account.

(** While a frame waits only frames that are not less urgent are sent, so that it waits for at most as many as there are. *)
Theorem C151_wait : forall s h s' i q f,
  steps s h s' -> nth_error s i = Some q -> In f q -> ~ In (Sent i f) h ->
  (forall g, In g (sent h) -> priorityHigherThan f g = false) /\
  (length (sent h) < length (List.filter (fun g => negb (priorityHigherThan f g)) (waiting s ++ queued h)))%nat.
Proof.
  intros s h s' i q f H Q F N. split.
  - apply (while_waiting s h s' i q f H Q F N).
  - apply (bounded_wait s h s' i q f H Q F N).
Qed.
Print Assumptions C151_wait.

(** If nothing is added all that waits is sent, each frame once, in the order of priority. *)
Theorem C151_drains_in_order :
  (forall s h s', steps s h s' -> queued h = [] -> waiting s' = [] ->
     Permutation (sent h) (waiting s) /\ StronglySorted (fun f g => priorityHigherThan g f = false) (sent h)) /\
  (forall owner s, queues_own owner s -> exists h s', steps s h s' /\ queued h = [] /\ waiting s' = []).
Proof.
  split.
  - intros s h s' H Q W. pose proof (steps_account s h s' H) as P. rewrite Q, W, app_nil_r in P.
    split; [exact P | apply (sorted_run s h s' H Q)].
  - intros owner s OW. exact (drains owner _ s eq_refl OW).
Qed.
Print Assumptions C151_drains_in_order.

(** Three nodes, one of them with two frames; identifiers 6, 5 (with a flag bit) and 7 wait, 9 behind 6. *)
Example C151_case :
  let f n := Frame n [] 0 0 in
  winners [(0%nat, f 6); (1%nat, f (2 ^ 31 + 5)); (2%nat, f 7)] = [(1%nat, f (2 ^ 31 + 5))] /\
  step [[f 9; f 6]; [f (2 ^ 31 + 5)]; [f 7]] (Sent 1 (f (2 ^ 31 + 5))) [[f 9; f 6]; []; [f 7]] /\
  queues_own (fun z => if z =? 5 then 1%nat else if z =? 7 then 2%nat else 0%nat) [[f 9; f 6]; [f (2 ^ 31 + 5)]; [f 7]] /\
  winners [(0%nat, f 6); (1%nat, f 6)] = [(0%nat, f 6); (1%nat, f 6)].
Proof.
  intros f. assert (W : winners [(0%nat, f 6); (1%nat, f (2 ^ 31 + 5)); (2%nat, f 7)] = [(1%nat, f (2 ^ 31 + 5))])
    by (vm_compute; reflexivity).
  split; [exact W|]. split; [|split; [|vm_compute; reflexivity]].
  - refine (step_send [[f 9; f 6]; [f (2 ^ 31 + 5)]; [f 7]] _ 1%nat (f (2 ^ 31 + 5)) [] [] _ W eq_refl). repeat split.
    + repeat constructor; simpl; intuition discriminate.
    + intros i g [E | [E | [E | []]]]; injection E as <- <-; eexists; (split; [reflexivity|]); (split; [simpl; tauto|]);
        intros h H; simpl in H; intuition (subst h; vm_compute; reflexivity).
    + intros [|[|[|[|i]]]] q Q; simpl in Q; try discriminate Q; injection Q as <-; intros _; eexists; simpl; eauto.
  - intros [|[|[|[|i]]]] q g Q; simpl in Q; try discriminate Q; injection Q as <-; simpl; intuition (subst g; vm_compute; reflexivity).
Qed.
