(** C76, C83: the loopback test. *)
From Coq Require Import ZArith Bool String List Lia.
From Verif Require Import Outcome ResultModel CanFrameModel SocketCanModel SocketCanSpec SocketCanHist GroupModel ManagerModel ManagerSpec
  LoopBackModel LoopBackSpec LoopBackProofs Props_Manager.
Import ListNotations.
Open Scope Z_scope.

(** Two rounds for two interfaces: in the first the frame 1 arrives on interface 0 and both, in the other order and after a
    strange frame, on interface 1; in the second the frame 2 arrives on interface 0. Then time is up. *)
Definition ex_msg (id len : Z) : kmsg := KMsg (2 ^ 31 + id) len [] [] 0.
Definition ex_rounds : list round :=
  [Round false (fun i => match i with 0%nat => (1, 0, [ex_msg 1 0]) | _ => (3, 0, [ex_msg 7 0; ex_msg 2 0; ex_msg 1 0]) end);
   Round false (fun i => match i with 0%nat => (2, 0, [ex_msg 1 3; ex_msg 2 0]) | _ => (-1, EWOULDBLOCK, []) end);
   Round true (fun _ => (-1, EWOULDBLOCK, []))].

(** C76: on interfaces and flags as start_test leaves them, the outcome of run_test on given rounds. It is [None] only if it
    has not timed out and either was asked to go on for ever or is still waiting for a frame. *)
Theorem C76_verdict : forall continuous rounds g, Forall iface_typed g -> (length g <= 255)%nat -> rounds_ok (length g) rounds ->
  match run_test continuous rounds g (LoopBack (repeat 0 (length g)) Failure) with
  | Some UB => False
  | Some (Ret r) => (r = Success <-> all_arrived (in_time rounds) (length g)) /\ (r = Failure <-> ~ all_arrived (in_time rounds) (length g))
  | None => in_time rounds = rounds /\ (continuous = true \/ ~ all_arrived rounds (length g))
  end.
Proof. exact run_verdict. Qed.
Print Assumptions C76_verdict.
Example C76_case : let g := [iface_make 0 "vcan0" 3; iface_make 1 "vcan1" 4] in
  Forall iface_typed g /\ rounds_ok 2 ex_rounds /\
  run_test true ex_rounds g (LoopBack [0; 0] Failure) = Some (Ret Success) /\
  run_test false ex_rounds g (LoopBack [0; 0] Failure) = Some (Ret Success) /\
  run_test false (firstn 1 ex_rounds) g (LoopBack [0; 0] Failure) = None /\
  run_test false (firstn 1 ex_rounds ++ skipn 2 ex_rounds) g (LoopBack [0; 0] Failure) = Some (Ret Failure).
Proof.
  cbn zeta. split; [apply Forall_cons; [|apply Forall_cons; [|apply Forall_nil]]; apply iface_make_typed|]. split.
  - repeat apply Forall_cons; [| | |apply Forall_nil]; intros [|[|i]] Hi; try lia; cbn [ex_rounds rn_recv];
      (split; [lia|]; split; [|cbn [length]; lia]); repeat constructor; cbn; try lia; intros X; congruence.
  - vm_compute. auto.
Qed.

(** C83: the test starts if every interface comes up and the kernel takes the frames; what it sends are the two test frames;
    and when what it has sent comes back before the timeout, it succeeds. *)
Theorem C83_starts : forall fuel m kernel send w, (length (m_required m) <= 255)%nat -> (length (m_required m) < fuel)%nat ->
  exists og lb sents w', start_test fuel loopback_make m kernel send w = Some (Ret (og, lb, sents, w')) /\
    match og with
    | None => True
    | Some g => m_own m = true /\ lb = LoopBack (repeat 0 (length g)) Failure /\ Forall iface_typed g /\
        (0 < length g <= 255)%nat /\ sents = repeat [test_message 1; test_message 2] (length g) /\ accepted send (length g)
    end /\
    (m_own m = true -> m_required m <> [] ->
     (forall t tr name, nth_error (m_required m) t = Some name -> comes_up m (Some test_filters) 1 name (kernel t tr)) ->
     accepted send (length (m_required m)) ->
     exists g, og = Some g /\ length g = length (m_required m)).
Proof. exact started. Qed.
Print Assumptions C83_starts.
Theorem C83_loopback_succeeds : forall fuel m kernel send w g lb sents w' continuous rounds, (length (m_required m) <= 255)%nat ->
  (length (m_required m) < fuel)%nat ->
  start_test fuel loopback_make m kernel send w = Some (Ret (Some g, lb, sents, w')) ->
  rounds_ok (length g) rounds -> looped_back (in_time rounds) sents ->
  match run_test continuous rounds g lb with
  | Some (Ret r) => r = Success
  | Some UB => False
  | None => continuous = true /\ in_time rounds = rounds
  end.
Proof. exact end_to_end. Qed.
Print Assumptions C83_loopback_succeeds.
(** Three interfaces and a kernel that hands every frame back at once. *)
Example C83_case :
  match start_test 4 loopback_make ex_manager (ex_answers (fun _ => false)) (fun _ msgs => (Z.of_nat (length msgs), 0)) (World [] []) with
  | Some (Ret (Some g, lb, sents, _)) =>
      let rounds := [Round false (fun i => let cs := nth i sents [] in (Z.of_nat (length cs), 0, map (fun c => looped c [] 0) cs))] in
      length g = 3%nat /\ rounds_ok 3 rounds /\ looped_back (in_time rounds) sents /\ run_test false rounds g lb = Some (Ret Success)
  | _ => False
  end.
Proof.
  destruct (start_test _ _ _ _ _ _) as [[[[[[g|] lb] sents] w1]|]|] eqn:E; try (vm_compute in E; discriminate).
  vm_compute in E. injection E as <- <- <- <-. cbn zeta. split; [reflexivity|]. split; [|split].
  - apply Forall_cons; [|apply Forall_nil]. intros [|[|[|i]]] Hi; try lia; cbn [rn_recv nth];
      (split; [cbn; lia|]; split; [|cbn [length map]; lia]); repeat constructor; cbn; try lia; intros X; congruence.
  - intros [|[|[|i]]] cs c; cbn [nth_error]; intros N I; try (destruct i; discriminate N); injection N as <-;
      (do 6 eexists; split; [left; reflexivity|]; split; [reflexivity|]; split; [reflexivity|]; cbn [nth];
       apply (in_map (fun c => looped c [] 0)); exact I).
  - vm_compute. reflexivity.
Qed.
