(** C162: what errno says when no interface came up. *)
From Coq Require Import ZArith Bool String List Lia.
From Verif Require Import Outcome ResultModel CanFrameModel SocketCanModel SocketCanHist GroupModel GroupSpec ManagerModel ManagerSpec
  ManagerProofs Props_Group Props_Manager ErrnoModel ErrnoSpec ErrnoProofs.
Import ListNotations.
Open Scope Z_scope.

(** Error numbers: 1 (EPERM) from socket, 92 (ENOPROTOOPT) from the options, 19 (ENODEV) from ioctl, 100 (ENETDOWN) from bind, 22 (EINVAL) from the
    filters; no call whose answer is ignored fails. *)
Definition ex_numbers : numbers := Numbers 1 92 92 19 100 None None None None 22 None.
(** A kernel without the device whose number in the list is [missing]. *)
Definition ex_missing (missing : nat -> bool) (t : nat) (tr : list event) : answers :=
  Answers (3 + Z.of_nat t) 0 0 (if missing t then -1 else 0) 7 0 0 ex_sockopt.

(** errno is an addition: the function is the one of C71-C74. *)
Theorem C162_same_function : forall fuel m configs num kernel numbering out w e0 r out' w',
  startInterfaceGroup fuel m configs num kernel out w = Some (Ret (r, out', w')) <->
  exists e, start_errno fuel m configs num kernel numbering out w e0 = Some (Ret (r, out', w', e)).
Proof.
  intros. rewrite <- (start_forget fuel m configs num kernel numbering out w e0).
  destruct (start_errno _ _ _ _ _ _ _ _ _) as [[[x e]|]|]; cbn [forget]; split.
  - intros E. injection E as ->. eauto.
  - intros [e' E]. now injection E as -> ->.
  - discriminate.
  - intros [e' E]. discriminate.
  - discriminate.
  - intros [e' E]. discriminate.
Qed.
Print Assumptions C162_same_function.

(** C162. Full statement: if the result is NotFound then errno is not zero. Here the kernel refuses nothing. *)
Theorem C162_not_zero_refuted : exists m configs num kernel out w e0 out' w', configs_ok configs num /\ m_required m <> [] /\
  (forall t tr, positive (kernel t tr) ex_numbers) /\
  start_errno 2 m configs num kernel (fun _ _ => ex_numbers) out w e0 = Some (Ret (NotFound, out', w', 0)).
Proof.
  exists (Manager ["vcan0"%string] true true), None, 1%nat, (ex_missing (fun _ => false)), None, (World [] []), 5.
  do 2 eexists. split; [cbn; lia|]. split; [discriminate|]. split; [intros; unfold positive; cbn; lia|]. vm_compute. reflexivity.
Qed.
Print Assumptions C162_not_zero_refuted.

(** The number is that of the first obstacle met by the last of the required interfaces, unless closing its socket failed for another reason.
    If that obstacle has no number, it is the number of a call that did not matter, or 0. *)
Theorem C162_last_reason_partial : forall fuel m configs num kernel numbering out w e0 out' w' e before name,
  configs_ok configs num -> (length (m_required m) <= 255)%nat -> m_required m = before ++ [name] ->
  start_errno fuel m configs num kernel numbering out w e0 = Some (Ret (NotFound, out', w', e)) ->
  exists tr more, w_trace w' = tr ++ more /\
    let a := kernel (length before) tr in
    let n := numbering (length before) tr in
    (exists x, stopped_by (obstacles m name configs num a n) x) /\
    (forall y, stopped_by (obstacles m name configs num a n) (Some y) ->
       (e = y <-> a_socket a < 0 \/ n_close n = None \/ n_close n = Some y)) /\
    (stopped_by (obstacles m name configs num a n) None -> last_failed (ignored_calls a n) e).
Proof.
  intros fuel m configs num kernel numbering out w e0 out' w' e before name OK LEN E H.
  destruct (start_last _ _ _ _ _ _ _ _ _ _ _ _ _ _ OK LEN E H) as (tr & more & T & x & X & D). exists tr, more.
  split; [exact T|]. cbn zeta. split; [eauto|]. split.
  - intros y Y. rewrite <- (stopped_unique _ _ _ X Y) in *. subst. pose proof (stopped_unique _ _ _ X Y) as ->. cbn [said] in D.
    rewrite D. destruct (Z.ltb_spec (a_socket (kernel (length before) tr)) 0) as [S|S]; [split; auto|].
    destruct (n_close _) as [c|]; cbn [ignored]; split; auto.
    + intros ->. auto.
    + intros [Q|[Q|Q]]; [lia|discriminate|congruence].
  - intros Y. pose proof (stopped_unique _ _ _ X Y) as ->. cbn [said] in D. rewrite D.
    destruct (fold_last (ignored_calls (kernel (length before) tr) (numbering (length before) tr)) 0) as [(b & c & d & E1 & E2 & E3)|[E1 E2]].
    + rewrite E3. left. exists b, d. auto.
    + rewrite E2. right. auto.
Qed.
Print Assumptions C162_last_reason_partial.

(** When the calls whose answer is ignored succeed: errno is zero exactly if nothing the kernel or the name's length refused stopped the last
    interface, that is if there was a negative index, the descriptor 0 or no filter array. *)
Theorem C162_not_zero_iff_partial : forall fuel m configs num kernel numbering out w e0 out' w' e before name,
  configs_ok configs num -> (length (m_required m) <= 255)%nat -> m_required m = before ++ [name] ->
  (forall t tr, quiet (numbering t tr) /\ positive (kernel t tr) (numbering t tr)) ->
  start_errno fuel m configs num kernel numbering out w e0 = Some (Ret (NotFound, out', w', e)) ->
  exists tr more, w_trace w' = tr ++ more /\
    let a := kernel (length before) tr in
    let n := numbering (length before) tr in
    (e <> 0 <-> stopped_by (obstacles m name configs num a n) (Some e)) /\
    (e = 0 <-> stopped_by (obstacles m name configs num a n) None).
Proof.
  intros fuel m configs num kernel numbering out w e0 out' w' e before name OK LEN E K H.
  destruct (start_last _ _ _ _ _ _ _ _ _ _ _ _ _ _ OK LEN E H) as (tr & more & T & x & X & D). exists tr, more.
  split; [exact T|]. cbn zeta. destruct (K (length before) tr) as [Q P]. destruct x as [y|]; cbn [said] in D.
  - assert (Y := stopped_positive _ _ _ _ _ _ _ P X). rewrite quiet_close in D by exact Q.
    assert (Z0 : e = y) by (destruct (_ <? 0) in D; exact D). clear D. rewrite Z0 in *. split; split; auto; try lia.
    intros N. now pose proof (stopped_unique _ _ _ X N).
  - rewrite quiet_calls in D by exact Q. subst e. split; split; auto; try lia. intros N. now pose proof (stopped_unique _ _ _ X N).
Qed.
Print Assumptions C162_not_zero_iff_partial.

(** The number may then be of something else: here the kernel has no time stamps, which does not matter, and there is no filter array. *)
Theorem C162_other_reason_refuted : exists m configs num kernel numbering out w e0 out' w', configs_ok configs num /\
  (forall t tr, positive (kernel t tr) (numbering t tr) /\ n_close (numbering t tr) = None) /\
  start_errno 2 m configs num kernel numbering out w e0 = Some (Ret (NotFound, out', w', 92)) /\
  stopped_by (obstacles m "vcan0" configs num (kernel 0%nat (w_trace w)) (numbering 0%nat (w_trace w))) None.
Proof.
  exists (Manager ["vcan0"%string] true true), None, 1%nat, (ex_missing (fun _ => false)),
    (fun _ _ => Numbers 1 92 92 19 100 (Some 92) None None None 22 None), None, (World [] []), 5.
  do 2 eexists. split; [cbn; lia|]. split; [intros; unfold positive; cbn; intuition lia|]. split; [vm_compute; reflexivity|].
  unfold obstacles. do 9 (apply skip; [cbn; first [lia|intuition congruence]|]). apply stop. split; [reflexivity|discriminate].
Qed.
Print Assumptions C162_other_reason_refuted.

(** Without required interfaces errno is what it was. *)
Theorem C162_none_required : forall k m configs num kernel numbering out w e0, m_required m = [] ->
  start_errno (S k) m configs num kernel numbering out w e0 = Some (Ret (NotFound, out, w, e0)).
Proof. intros k m configs num kernel numbering out w e0 E. unfold start_errno. cbn [start_loop_errno]. rewrite E. reflexivity. Qed.
Print Assumptions C162_none_required.

(** Only the last interface counts: a missing device is not told if the one after it comes up. *)
Theorem C162_earlier_reason_refuted : exists m configs num kernel w e0 g w',
  start_errno 3 m configs num kernel (fun _ _ => ex_numbers) None w e0 = Some (Ret (SuccessPartial, g, w', 0)) /\
  stopped_by (obstacles m "vcan0" configs num (kernel 0%nat (w_trace w)) ex_numbers) (Some 19).
Proof.
  exists (Manager ["vcan0"; "vcan1"]%string true true), (Some ex_filters), 2%nat, (ex_missing (fun t => (t =? 0)%nat)), (World [] []), 5.
  do 2 eexists. split; [vm_compute; reflexivity|]. cbn [w_trace]. unfold obstacles.
  do 4 (apply skip; [cbn; first [lia|intuition congruence]|]). apply stop. cbn. lia.
Qed.
Print Assumptions C162_earlier_reason_refuted.

(** Both devices are missing: the last one's number, with the socket closed. *)
Example C162_case : configs_ok (Some ex_filters) 2 /\
  (forall t tr, quiet ex_numbers /\ positive (ex_missing (fun _ => true) t tr) ex_numbers) /\
  match start_errno 3 (Manager ["vcan0"; "vcan1"]%string true true) (Some ex_filters) 2 (ex_missing (fun _ => true)) (fun _ _ => ex_numbers)
    None (World [] []) 5 with
  | Some (Ret (r, o, w, e)) => r = NotFound /\ e = 19 /\ w_trace w = [Opened 3; Closed 3; Opened 4; Closed 4]
  | _ => False end.
Proof. split; [cbn; lia|]. split; [intros; unfold quiet, positive; cbn; intuition lia|]. vm_compute. auto. Qed.
