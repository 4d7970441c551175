(** C133, C134, C135: what a program can count on about the statistics, the receive times and the interfaces of its group. *)
From Coq Require Import ZArith Bool String List Lia Sorted.
From Verif Require Import Outcome ResultModel CanFrameModel SocketCanModel SocketCanSpec GroupModel GroupSpec ManagerModel ManagerSpec
  ClientModel ClientSpec TrafficSpec AccountSpec AccountProofs Props_SocketCan Props_Group Props_Manager Props_Client Props_Traffic.
Import ListNotations.
Open Scope Z_scope.

(** C133. Of all that arrived at an interface's socket since the group was started, the statistics count what the program has
    taken from it: the frames it was shown, and the error messages of each class. What they do not count still waits. *)
Theorem C133_statistics_account_for_what_arrived : forall live m h c k i g s, (length (m_required m) <= 255)%nat -> NoDup live ->
  life live m h c k -> 0 <= i -> cl_group c = Some g -> nth_error g (Z.to_nat i) = Some s ->
  let st := getStatistics s in
  rx_total st = Z.of_nat (length (frames_read i h)) mod 2 ^ 64 /\
  rx_dropped st = reported_drops (messages_read i h) mod 2 ^ 64 /\
  exists taken, arrived k (getSocketDescriptor s) = taken ++ waiting k (getSocketDescriptor s) /\
    taken = map packet_of (messages_read i h) /\
    rx_total st = Z.of_nat (length (List.filter readable taken)) mod 2 ^ 64 /\
    forall e, counter e st = errors_among (class_bit e) taken mod 2 ^ 64.
Proof. exact statistics_of_life. Qed.
Print Assumptions C133_statistics_account_for_what_arrived.
(** The program of C127_case took an unselected frame, an error message (bits 0 and 6: transmit timeout and bus off) and a
    frame; another one waits. Interface 1 took nothing. *)
Example C133_case : exists k s, life [0; 1; 2] ex_manager ((ex_two, ex_reply ex_two (ex_now 3)) :: ex_read_all) (ex_now 4) k /\
  (exists g, cl_group (ex_now 4) = Some g /\ nth_error g (Z.to_nat 0) = Some s) /\
  rx_total (getStatistics s) = 2 /\ map (fun e => counter e (getStatistics s)) [TxTimeout; LostArb; BusOff] = [1; 0; 1] /\
  length (arrived k (getSocketDescriptor s)) = 4%nat.
Proof.
  destruct C127_case as (k & L & _ & _ & A & _). exists k.
  exists (match cl_group (ex_now 4) with Some (s :: _) => s | _ => iface_make 0 EmptyString 0 end).
  split; [exact L|]. split; [eexists; split; vm_compute; reflexivity|]. split; [vm_compute; reflexivity|].
  split; [vm_compute; reflexivity|].
  replace (getSocketDescriptor _) with 3 by (vm_compute; reflexivity). rewrite A. reflexivity.
Qed.

(** C134, full statement: the receive times of the frames read from an interface never go back,

      life live m h c k -> in_order (map fts (frames_read i h))

    It is false: the times are those of SO_TIMESTAMP, which are those of the wall clock, and a message to which the kernel
    attached none has the time 0. *)
Definition ex_stamped (t : Z) : kmsg := KMsg 0x80000577 1 [7] [CMsg 1 29 32 (t, 5) 0] 32.
Definition ex_timed (t : Z) : call := Read 1 0 [ex_stamped t] 0 ex_out.
Definition ex_stepped (n : nat) : client :=
  match n with 1%nat => ex_after (ex_timed 20) ex_up | _ => ex_after (ex_timed 10) (ex_after (ex_timed 20) ex_up) end.
Lemma ex_timed_legal : forall t c, cl_group c <> None -> legal [0; 1; 2] (ex_timed t) c.
Proof.
  intros t c G. split; [exact G|]. split; [lia|]. split; [exact ex_out_typed|]. split; [lia|]. split; [|reflexivity].
  constructor; [|constructor]. split; [cbn; lia|]. split; [cbn; lia|]. split; [cbn; lia|]. intros _. cbn. lia.
Qed.
Definition ex_both : sockets :=
  let q := [packet_of (ex_stamped 20); packet_of (ex_stamped 10)] in
  Sockets (fun fd => if fd =? 3 then q else []) (fun fd => if fd =? 3 then q else []).
Definition ex_step_back : list (call * reply) :=
  [(ex_timed 10, ex_reply (ex_timed 10) (ex_stepped 1)); (ex_timed 20, ex_reply (ex_timed 20) ex_up); (ex_boot, Started Success)].
Lemma ex_step_back_life : life [0; 1; 2] ex_manager ex_step_back (ex_stepped 2) (ex_then [] (ex_then [packet_of (ex_stamped 10)] ex_both)).
Proof.
  eapply (life_call _ _ _ (ex_stepped 1) (ex_then [packet_of (ex_stamped 10)] ex_both) (ex_timed 10) 4).
  - eapply (life_call _ _ _ ex_up ex_both (ex_timed 20) 4).
    + apply ex_up_life. reflexivity.
    + apply ex_timed_legal. vm_compute. discriminate.
    + vm_compute. reflexivity.
    + exists [packet_of (ex_stamped 10)]. split; [|vm_compute; reflexivity]. left. split; [lia|]. split; reflexivity.
  - apply ex_timed_legal. vm_compute. discriminate.
  - vm_compute. reflexivity.
  - exists []. split; [|vm_compute; reflexivity]. left. split; [lia|]. split; reflexivity.
Qed.
Theorem C134_receive_times_never_go_back_refuted : exists live m h c k i g s, (length (m_required m) <= 255)%nat /\ NoDup live /\ In 0 live /\
  life live m h c k /\ 0 <= i /\ cl_group c = Some g /\ nth_error g (Z.to_nat i) = Some s /\
  ~ in_order (map fts (frames_read i h)).
Proof.
  exists [0; 1; 2], ex_manager, ex_step_back, (ex_stepped 2), (ex_then [] (ex_then [packet_of (ex_stamped 10)] ex_both)), 0.
  exists (match cl_group (ex_stepped 2) with Some g => g | None => [] end).
  exists (match cl_group (ex_stepped 2) with Some (s :: _) => s | _ => iface_make 0 EmptyString 0 end).
  split; [cbn; lia|]. split; [repeat constructor; cbn; intuition discriminate|]. split; [now left|].
  split; [exact ex_step_back_life|]. split; [lia|]. split; [vm_compute; reflexivity|]. split; [vm_compute; reflexivity|].
  replace (map fts (frames_read 0 ex_step_back)) with [20000005; 10000005] by (vm_compute; reflexivity). cbn. lia.
Qed.
Print Assumptions C134_receive_times_never_go_back_refuted.
(** They are exactly the times the kernel attached to the messages that were taken, in the order in which they were taken, so
    they never go back if and only if those do not. *)
Theorem C134_receive_times_partial : forall live m h c k i g s, (length (m_required m) <= 255)%nat -> NoDup live ->
  life live m h c k -> 0 <= i -> cl_group c = Some g -> nth_error g (Z.to_nat i) = Some s ->
  let times := map stamp (List.filter (fun msg => readable (packet_of msg)) (messages_read i h)) in
  map fts (frames_read i h) = times /\ (in_order (map fts (frames_read i h)) <-> in_order times).
Proof.
  intros live m h c k i g s LEN ND L I G NE. cbv zeta. rewrite (times_of_life live m h c k i g s LEN ND L I G NE). intuition.
Qed.
Print Assumptions C134_receive_times_partial.
Example C134_case : life [0; 1; 2] ex_manager ex_step_back (ex_stepped 2) (ex_then [] (ex_then [packet_of (ex_stamped 10)] ex_both)) /\
  map stamp (List.filter (fun msg => readable (packet_of msg)) (messages_read 0 ex_step_back)) = [20000005; 10000005].
Proof. split; [exact ex_step_back_life|vm_compute; reflexivity]. Qed.

(** C135. In every state of a program that has a group: the group has at least one interface, it counts them all, each of them
    is one that was required, with its name and its index, in the order of the requirements. *)
Theorem C135_group_has_required_interfaces : forall live m h c g, (length (m_required m) <= 255)%nat ->
  history live m h c -> cl_group c = Some g ->
  1 <= getInterfaceCount g <= Z.of_nat (length (m_required m)) /\ getInterfaceCount g = Z.of_nat (length g) /\
  StronglySorted (fun s s' => getInterfaceIndex s < getInterfaceIndex s') g /\
  Forall (fun s => 0 <= getInterfaceIndex s /\ nth_error (m_required m) (Z.to_nat (getInterfaceIndex s)) = Some (getInterfaceName s)) g.
Proof. exact history_group. Qed.
Print Assumptions C135_group_has_required_interfaces.
(** No call but a successful start or a stop changes which interfaces these are, nor their sockets. *)
Theorem C135_interfaces_stay_the_same : forall fuel m o c r c' g', perform fuel m o c = Some (Ret (r, c')) -> cl_group c' = Some g' ->
  (forall configs num kernel r0, o = Start configs num kernel -> r = Started r0 -> isSuccess r0 = false) ->
  exists g, cl_group c = Some g /\ map identity g' = map identity g.
Proof. exact call_identity. Qed.
Print Assumptions C135_interfaces_stay_the_same.
Example C135_case : history [0; 1; 2] ex_manager ex_step_back (ex_stepped 2) /\
  exists g, cl_group (ex_stepped 2) = Some g /\ getInterfaceCount g = 3 /\ map getInterfaceIndex g = [0; 1; 2].
Proof.
  split; [exact (TrafficProofs.life_history _ _ _ _ _ ex_step_back_life)|]. eexists. split; [vm_compute; reflexivity|].
  split; vm_compute; reflexivity.
Qed.
