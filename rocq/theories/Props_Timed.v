(** C123: when the loopback test gives up and what it prints meanwhile. *)
From Coq Require Import ZArith Bool String List Lia Sorted.
From Verif Require Import Outcome ResultModel CInt CanFrameModel SocketCanModel SocketCanSpec SocketCanHist GroupModel ManagerModel ManagerSpec
  LoopBackModel LoopBackSpec LoopBackProofs TimedModel TimedSpec TimedProofs Props_LoopBack.
Import ListNotations.
Open Scope Z_scope.

(** A test of two interfaces begun at 100 ns, with a limit of one second: the frames of C76's example arrive after 10 ns and
    after 1.0 s; an iteration 6 ns beyond the limit ends it. *)
Definition ex_platform : platform := Platform 32 (fun _ => None).
Definition ex_poll : poll_request -> Z * list Z := fun _ => (0, []).
Definition ex_ticks : list tick :=
  [Tick 110 ex_poll 150 (rn_recv (nth 0 ex_rounds (Round true (fun _ => (0, 0, [])))));
   Tick 1000000100 ex_poll 1000000105 (rn_recv (nth 1 ex_rounds (Round true (fun _ => (0, 0, [])))));
   Tick 1000000106 ex_poll 1000000110 (fun _ => (-1, EWOULDBLOCK, []))].
Definition ex_pair : group := [iface_make 0 "vcan0" 3; iface_make 1 "vcan1" 4].

(** C123. Run on interfaces and flags as start_test leaves them, with a clock that does not go back, the test answers success
    iff both frames arrived on every interface in an iteration begun within the limit, and failure iff they did not; it
    answers nothing only while every iteration began within the limit. *)
Theorem C123_verdict_by_the_clock : forall P timeout continuous started last ticks g, wf_platform P -> 0 <= timeout * 1000000000 < 2 ^ 64 ->
  steady started last ticks -> Forall iface_typed g -> (length g <= 255)%nat -> ticks_ok (length g) ticks ->
  exists r reps, run_timed P timeout continuous started last ticks g (LoopBack (repeat 0 (length g)) Failure) = Ret (r, reps) /\
    match r with
    | Some r => (r = Success <-> all_arrived (deliveries (within timeout started ticks)) (length g)) /\
                (r = Failure <-> ~ all_arrived (deliveries (within timeout started ticks)) (length g))
    | None => within timeout started ticks = ticks /\ (continuous = true \/ ~ all_arrived (deliveries ticks) (length g))
    end.
Proof. exact timed_verdict. Qed.
Print Assumptions C123_verdict_by_the_clock.

(** Reports are at least a second apart, the first at least a second after the test began to run; and while the test runs, no
    iteration ends its wait a second or more after the latest of them. *)
Theorem C123_a_report_every_second : forall P timeout continuous started last ticks g lb r reps, steady started last ticks ->
  run_timed P timeout continuous started last ticks g lb = Ret (r, reps) ->
  Sorted (fun a b => a + 1000000000 <= b) (last :: map fst reps) /\
  (r = None -> forall k, In k ticks -> exists t, In t (last :: map fst reps) /\ t <= tk_now k < t + 1000000000).
Proof.
  intros P timeout continuous started last ticks g lb r reps S E. split; [eapply reports_spaced; eauto|].
  intros ->. eapply reports_prompt; eauto. now apply steady_clock.
Qed.
Print Assumptions C123_a_report_every_second.

(** A report has a line for each interface, with the numbers of frames and of errors of each class received in the iterations
    before it. *)
Theorem C123_reports_are_accurate : forall P timeout continuous started last ticks g lb r reps t lines,
  Forall unused g -> (length g <= 255)%nat -> ticks_ok (length g) ticks ->
  run_timed P timeout continuous started last ticks g lb = Ret (r, reps) -> In (t, lines) reps ->
  exists j k, nth_error ticks j = Some k /\ tk_now k = t /\ accurate g (firstn j ticks) lines.
Proof.
  intros P timeout continuous started last ticks g lb r reps t lines U B R E I.
  assert (TG : Forall iface_typed g) by (eapply Forall_impl; [|exact U]; unfold unused; tauto).
  destruct (reports_contents _ _ _ _ _ _ _ _ _ _ _ TG B R (unused_counted g U) E t lines I) as (j & k & A & C & D & F).
  exists j, k. split; auto. split; auto. split; auto.
Qed.
Print Assumptions C123_reports_are_accurate.

(** Interfaces are as these theorems want them when the test begins to run. *)
Theorem C123_begins_unused : forall fuel m kernel send w g lb sents w', (length (m_required m) <= 255)%nat ->
  (length (m_required m) < fuel)%nat ->
  start_test fuel loopback_make m kernel send w = Some (Ret (Some g, lb, sents, w')) ->
  Forall unused g /\ (length g <= 255)%nat /\ lb = LoopBack (repeat 0 (length g)) Failure.
Proof.
  intros fuel m kernel send w g lb sents w' B F E. split; [eapply started_unused; eauto|].
  destruct (started fuel m kernel send w B F) as (og & lb' & sents' & w1 & ST & H & _). rewrite E in ST.
  assert (og = Some g /\ lb' = lb) as [-> ->] by (split; congruence). intuition lia.
Qed.
Print Assumptions C123_begins_unused.

Definition ex_line (name : string) (n : Z) : string * stats := (name, Stats n 0 0 0 0 0 0 0 0 0 0).
Example C123_case : steady 100 103 ex_ticks /\ ticks_ok 2 ex_ticks /\ Forall unused ex_pair /\
  within 1 100 ex_ticks = firstn 2 ex_ticks /\
  run_timed ex_platform 1 true 100 103 ex_ticks ex_pair (LoopBack [0; 0] Failure) =
    Ret (Some Success, [(1000000105, [ex_line "vcan0" 1; ex_line "vcan1" 3])]) /\
  run_timed ex_platform 0 true 100 103 ex_ticks ex_pair (LoopBack [0; 0] Failure) = Ret (Some Failure, []) /\
  run_timed ex_platform 1 true 100 103 (firstn 2 ex_ticks) ex_pair (LoopBack [0; 0] Failure) =
    Ret (None, [(1000000105, [ex_line "vcan0" 1; ex_line "vcan1" 3])]).
Proof.
  split. { unfold steady, readings, ex_ticks; cbn [flat_map tk_check tk_now app]; split; repeat (apply SSorted_cons || apply SSorted_nil || apply Forall_cons || apply Forall_nil); lia. }
  split. { repeat (apply Forall_cons; [intros [|[|i]] H; [| |lia]; cbn [rn_recv nth ex_rounds tk_recv];
    (split; [lia|]; split; [|cbn [length]; lia]); repeat constructor; cbn; try lia; intros X; congruence|]). apply Forall_nil. }
  split. { repeat (apply Forall_cons; [split; [apply iface_make_typed|reflexivity]|]). apply Forall_nil. }
  split; [reflexivity|]. split; [vm_compute; reflexivity|]. split; vm_compute; reflexivity.
Qed.
