(** C153: writes and ancillary data. *)
From Coq Require Import ZArith Bool String List Lia.
From Verif Require Import Outcome ResultModel CanFrameModel SocketCanModel SocketCanSpec ControlModel ControlSpec ControlProofs Props_SocketCan.
Import ListNotations.
Open Scope Z_scope.

(** C153. Full statement: no message that a write hands to the kernel carries ancillary data. That is false:
    C153_no_ancillary_refuted. Here is, for every history of calls on an interface made where [memory] was in its control
    buffers, exactly what is handed over: the frames of C55, and with the i-th the ancillary data of the last message that was
    received as the i-th of a read; if there was none yet, all 32 bytes that were in memory when the interface was made. *)
Theorem C153_ancillary_partial : forall memory index name fd cs k fs n,
  memory_typed memory -> Forall ccall_ok cs -> frames_typed fs -> (1 <= n <= 4)%nat ->
  exists s w s' sent, do_ccalls cs (ciface_make memory index name fd) = Ret s /\
    write_a k s fs n = Ret (CWriteOut w (Some sent), s') /\ length sent = n /\ wr_sent w = Some (map fst sent) /\
    forall i, (i < n)%nat ->
      nth_error (map snd sent) i = Some (match latest (received_in i cs) with Some (m, data) => data | None => nth i memory [] end).
Proof.
  intros memory index name fd cs k fs n M F TF N. destruct (handed memory index name fd cs k fs n M F TF N) as (s & w & s' & sent & A & B & C & D & E).
  exists s, w, s', sent. split; [exact A|]. split; [exact B|]. split; [exact C|]. split; [exact D|]. intros i I. rewrite (E i I). unfold holds.
  destruct (latest (received_in i cs)) as [[m data]|]; reflexivity.
Qed.
Print Assumptions C153_ancillary_partial.

(** C153. So a write hands over no ancillary data exactly if, for each of its messages, one was received in that position and
    the last of these came without. *)
Theorem C153_none_iff : forall memory index name fd cs k fs n s w s' sent,
  memory_typed memory -> Forall ccall_ok cs -> frames_typed fs -> (1 <= n <= 4)%nat ->
  do_ccalls cs (ciface_make memory index name fd) = Ret s -> write_a k s fs n = Ret (CWriteOut w (Some sent), s') ->
  (Forall (fun x => snd x = []) sent <-> forall i, (i < n)%nat -> exists m, latest (received_in i cs) = Some (m, [])).
Proof.
  intros memory index name fd cs k fs n s w s' sent M F TF N E W.
  destruct (handed memory index name fd cs k fs n M F TF N) as (s0 & w0 & s0' & sent0 & A & B & C & D & H).
  assert (s0 = s) by congruence. subst s0. assert (sent0 = sent) by congruence. subst sent0.
  rewrite <- (none_iff memory cs n M) by lia. rewrite <- (Forall_map snd (fun a : list Z => a = [])), Forall_forall. split.
  - intros X i I. specialize (H i I). apply X. eapply nth_error_In. exact H.
  - intros X y Y. apply In_nth_error in Y. destruct Y as (i & Y). assert (I : (i < n)%nat) by (rewrite <- C, <- (map_length snd sent); apply nth_error_Some; congruence).
    rewrite (H i I) in Y. rewrite (X i I) in Y. congruence.
Qed.
Print Assumptions C153_none_iff.

(** C153. A kernel that examines the ancillary data of what is sent never again takes a frame from an interface that has
    received a message, whose receive time the kernel always stores: every write fails. *)
Theorem C153_never_again : forall memory index name fd cs understood k fs n,
  memory_typed memory -> Forall ccall_ok cs -> Forall stamped_call cs -> received_in 0 cs <> [] ->
  examining understood k -> frames_typed fs -> (1 <= n <= 4)%nat ->
  exists s w s', do_ccalls cs (ciface_make memory index name fd) = Ret s /\
    write_a k s fs n = Ret (w, s') /\ wr_result (cw_out w) = Failure /\ wr_count (cw_out w) = 0.
Proof. exact never_again. Qed.
Print Assumptions C153_never_again.

(** (In these histories there is room for the receive time of every message, as stamped_message has it.) *)
Theorem C153_room : forall memory index name fd cs s, memory_typed memory -> Forall ccall_ok cs -> Forall stamped_call cs ->
  do_ccalls cs (ciface_make memory index name fd) = Ret s -> if_ctl (ci_if s) = [32; 32; 32; 32].
Proof.
  intros memory index name fd cs s M F S E. destruct (make_ok memory index name fd M) as [OK _].
  assert (R : Forall (eq 32) (if_ctl (ci_if s))) by (eapply history_room; [exact OK|exact F|exact S| |exact E]; repeat constructor).
  destruct (ccalls_run memory cs [] _ OK F (proj2 (make_ok memory index name fd M))) as (s0 & E0 & [(_ & _ & L) _] & _).
  assert (s0 = s) by congruence. subst s0. destruct (if_ctl (ci_if s)) as [|a [|b [|c [|d [|? ?]]]]]; try discriminate.
  inversion R as [|? ? <- R1]; inversion R1 as [|? ? <- R2]; inversion R2 as [|? ? <- R3]; inversion R3; subst; auto.
Qed.
Print Assumptions C153_room.

(** C153. Such a kernel does not even take the first frames of an interface in memory that is all zero. *)
Theorem C153_fresh_memory : forall memory index name fd understood k fs n, memory_typed memory -> nth 0 memory [] = repeat 0 32 ->
  examining understood k -> frames_typed fs -> (1 <= n <= 4)%nat ->
  exists w s', write_a k (ciface_make memory index name fd) fs n = Ret (w, s') /\ wr_result (cw_out w) = Failure /\ wr_count (cw_out w) = 0.
Proof. exact fresh_refused. Qed.
Print Assumptions C153_fresh_memory.

(** An interface has read one message, which came at 5.000007 seconds. *)
Definition ex_memory : list (list Z) := repeat (repeat 170 32) 4.
Definition ex_stamped : kmsg * list Z := (kernel_msg 0 32 (Skb 0x80000123 1 [9] (Some (5, 7)) 0), timestamp_bytes 5 7).
Definition ex_past : list ccall := [CRead 1 0 [ex_stamped] ex_out].
Definition ex_strict (msgs : list (canfd * list Z)) : Z * Z :=
  if forallb (fun x => sendable (length (snd x)) (fun type _ => type =? 37) (snd x)) msgs then (Z.of_nat (length msgs), 0) else (-1, EINVAL).
Example C153_case : memory_typed ex_memory /\ Forall ccall_ok ex_past /\ Forall stamped_call ex_past /\ received_in 0 ex_past <> [] /\
  examining (fun type _ => type =? 37) ex_strict /\ frames_typed ex_frames /\
  ex_strict [(CanFd 0 0 [], [])] = (1, 0) /\ ex_strict [(CanFd 0 0 [], bytes_of 8 20 ++ bytes_of 4 1 ++ bytes_of 4 37 ++ [1; 0; 0; 0; 0; 0; 0; 0])] = (1, 0) /\
  (let* s := do_ccalls ex_past (ciface_make ex_memory 0 "vcan0" 3) in
   let* (w, s1) := write_a (fun msgs => (Z.of_nat (length msgs), 0)) s ex_frames 2 in
   Ret (wr_result (cw_out w), option_map (map snd) (cw_handed w))) = Ret (Success, Some [timestamp_bytes 5 7; repeat 170 32]) /\
  (let* s := do_ccalls ex_past (ciface_make ex_memory 0 "vcan0" 3) in
   let* (w, s1) := write_a ex_strict s ex_frames 1 in Ret (wr_result (cw_out w))) = Ret Failure.
Proof.
  assert (ST : stamped_message ex_stamped) by (exists 0, (Skb 0x80000123 1 [9] (Some (5, 7)) 0), 5, 7; auto).
  split; [split; [reflexivity|repeat constructor]|].
  split. { constructor; [|constructor]. split; [|split; [exact ex_out_typed|repeat constructor]].
    split; [lia|]. split; [|reflexivity]. repeat constructor; cbn; try lia. }
  split. { constructor; [|constructor]. constructor; [exact ST|constructor]. }
  split; [discriminate|]. split.
  { split; [reflexivity|]. intros c a rest H. unfold ex_strict. cbn [forallb snd]. rewrite H. reflexivity. }
  split; [exact ex_frames_typed|]. split; [vm_compute; reflexivity|]. split; [vm_compute; reflexivity|]. split; vm_compute; reflexivity.
Qed.

Theorem C153_no_ancillary_refuted : exists memory index name fd cs k fs n s w s' c sec usec rest,
  memory_typed memory /\ Forall ccall_ok cs /\ frames_typed fs /\ do_ccalls cs (ciface_make memory index name fd) = Ret s /\
  write_a k s fs n = Ret (CWriteOut w (Some ((c, timestamp_bytes sec usec) :: rest)), s').
Proof.
  exists ex_memory, 0, "vcan0"%string, 3, ex_past, (fun msgs => (Z.of_nat (length msgs), 0)), ex_frames, 1%nat.
  destruct C153_case as (M & F & _ & _ & _ & TF & _).
  destruct (C153_ancillary_partial ex_memory 0 "vcan0" 3 ex_past (fun msgs => (Z.of_nat (length msgs), 0)) ex_frames 1 M F TF ltac:(lia))
    as (s & w & s' & sent & A & B & C & D & E).
  specialize (E 0%nat ltac:(lia)). destruct sent as [|[c a] [|? ?]]; try discriminate. cbn [map nth_error snd] in E.
  change (latest (received_in 0 ex_past)) with (Some ex_stamped) in E. cbn iota beta in E.
  exists s, w, s', c, 5, 7, []. assert (a = timestamp_bytes 5 7) as -> by (injection E as ->; reflexivity). auto 10.
Qed.
Print Assumptions C153_no_ancillary_refuted.
