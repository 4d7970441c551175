(** Property C144: the array that select hands to the kernel.
    [select_history P rule g calls v] is a history of calls of select on a group; [rule] says what may be accessed through
    the vector's data() (PollModel.v); [select] is the function of GroupModel.v, which C69 and C70 are about. *)
From Coq Require Import ZArith Bool String List Lia.
From Verif Require Import Outcome ResultModel CInt SatMathSpec SatMathModel TimeModel CanFrameModel SocketCanModel GroupModel
  PollModel PollSpec PollProofs.
Import ListNotations.
Open Scope Z_scope.

(** C144. Full statement: select accesses only elements that its vector has. False: the vector never has an element, so
    the first call that gets memory is undefined, whatever the (non-empty) group. *)
Theorem C144_elements_only_refuted : forall P g c calls, g <> [] -> sc_mem c <> None ->
  select_history P Elements g (c :: calls) pvec_new = UB.
Proof.
  intros P g c calls G M. apply history_elements; auto.
  destruct g; [congruence|cbn; lia].
Qed.
Print Assumptions C144_elements_only_refuted.

(** Exactly when. *)
Theorem C144_elements_only_iff : forall P g calls, g <> [] ->
  (select_history P Elements g calls pvec_new = UB <-> Exists (fun c => sc_mem c <> None) calls).
Proof. intros P g calls G. apply history_elements; auto. destruct g; [congruence|cbn; lia]. Qed.
Print Assumptions C144_elements_only_iff.

(** All accesses are within the storage the vector owns, in every history: the calls made before there is memory throw,
    without asking the kernel; every later one answers as a function of its own arguments and of what the kernel answers
    to it, whatever was left in the array by earlier calls; and memory is not asked for again. *)
Theorem C144_within_storage_partial : forall P g calls, g <> [] ->
  Forall (fun c => select P (sc_ppoll c) g (sc_timeout c) (sc_ignore c) <> UB) calls ->
  exists thrown served es v k, calls = thrown ++ served /\
    Forall (fun c => sc_mem c = None) thrown /\
    match served with [] => True | c :: _ => sc_mem c <> None end /\
    select_history P Storage g calls pvec_new = Ret (repeat Thrown (length thrown) ++ es, v, k) /\
    Forall2 (answers_as P g) served es /\
    k = (length thrown + match served with [] => 0 | _ => 1 end)%nat.
Proof.
  intros P g calls G F. apply history_storage; auto. destruct g; [congruence|cbn; lia].
Qed.
Print Assumptions C144_within_storage_partial.

(** A group without interfaces needs no memory at all, under either rule. *)
Theorem C144_no_interfaces : forall P rl calls,
  Forall (fun c => select P (sc_ppoll c) [] (sc_timeout c) (sc_ignore c) <> UB) calls ->
  exists es, select_history P rl [] calls pvec_new = Ret (es, pvec_new, O) /\ Forall2 (answers_as P []) calls es.
Proof. exact history_empty. Qed.
Print Assumptions C144_no_interfaces.

Definition poll_group : group := [iface_make 0 "can0" 3; iface_make 0 "can1" 5].
Definition poll_calls : list scall :=
  [SCall 1000 true (fun _ => (1, [POLLHUP; 0])) None; SCall 1000 true (fun _ => (1, [POLLHUP; 0])) (Some 2%nat);
   SCall 500 false (fun _ => (-1, [])) None; SCall 500 false (fun _ => (1, [POLLIN])) None].
Example C144_case : Forall (fun c => select lp64 (sc_ppoll c) poll_group (sc_timeout c) (sc_ignore c) <> UB) poll_calls /\
  match select_history lp64 Storage poll_group poll_calls pvec_new with
  | Ret ([Thrown; Returned a _; Returned b _; Returned c _], _, k) => a = SuccessPartial /\ b = Failure /\ c = Success /\ k = 2%nat
  | _ => False
  end.
Proof. split; [repeat (apply Forall_cons; [vm_compute; discriminate|]); apply Forall_nil|]. vm_compute. auto. Qed.
