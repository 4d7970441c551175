(** Proofs about the ancillary data of the messages that are sent. *)
From Coq Require Import ZArith Bool String List Lia.
From Verif Require Import Outcome ResultModel CanFrameModel SocketCanModel SocketCanSpec SocketCanProofs SocketCanHist ControlModel ControlSpec.
Import ListNotations.
Open Scope Z_scope.

Lemma latest_snoc : forall A (l : list A) x, latest (l ++ [x]) = Some x.
Proof. intros A l x. unfold latest. rewrite map_app. cbn [map]. apply last_last. Qed.

Definition attached (x : list Z * Z) : list Z := firstn (Z.to_nat (snd x)) (fst x).

Lemma receive_attached : forall msgs control ctl, length control = length ctl -> Forall came_with msgs ->
  forall i, (i < length control)%nat ->
  nth i (map attached (combine (receive_control (map snd msgs) control) (receive_ctl (map fst msgs) ctl))) [] =
  match nth_error msgs i with Some x => snd x | None => nth i (map attached (combine control ctl)) [] end.
Proof.
  induction msgs as [|[m w] msgs IH]; intros control ctl L C i I; cbn [map receive_control receive_ctl].
  - destruct i; reflexivity.
  - destruct control as [|c control]; [cbn in I; lia|]. destruct ctl as [|l ctl]; [discriminate|].
    inversion C as [|? ? [C1 C2] C3]; subst. cbn [map receive_control receive_ctl combine fst snd] in *.
    destruct i as [|i]; cbn [nth nth_error].
    + unfold attached. cbn [fst snd]. rewrite C1, Nat2Z.id, firstn_app, firstn_all, Nat.sub_diag. cbn [firstn]. apply app_nil_r.
    + apply IH; auto; cbn [length] in *; lia.
Qed.

Lemma receive_control_typed : forall msgs control, Forall came_with msgs -> memory_typed control ->
  memory_typed (receive_control (map snd msgs) control).
Proof.
  assert (X : forall msgs control, Forall came_with msgs -> Forall (fun b => length b = 32%nat) control ->
    length (receive_control (map snd msgs) control) = length control /\ Forall (fun b => length b = 32%nat) (receive_control (map snd msgs) control)).
  { induction msgs as [|[m w] msgs IH]; intros control C F; cbn [map receive_control]; [auto|].
    destruct control as [|c control]; [auto|]. inversion C as [|? ? [C1 C2] C3]; subst. inversion F; subst. destruct (IH control C3 H2) as [A B].
    cbn [fst snd] in *. split; [cbn [length]; lia|]. constructor; [rewrite app_length, skipn_length; lia|exact B]. }
  intros msgs control C [L F]. destruct (X msgs control C F). split; [lia|auto].
Qed.

Definition state_ok (s : ciface) : Prop := iface_typed (ci_if s) /\ memory_typed (ci_control s).

Definition holds (memory : list (list Z)) (cs : list ccall) (i : nat) : list Z :=
  match latest (received_in i cs) with Some x => snd x | None => nth i memory [] end.

Lemma received_in_app : forall i a b, received_in i (a ++ b) = received_in i a ++ received_in i b.
Proof. intros. unfold received_in. apply flat_map_app. Qed.

Lemma ccall_step : forall memory pre c s, state_ok s -> ccall_ok c ->
  (forall i, (i < 4)%nat -> nth i (ancillary s) [] = holds memory pre i) ->
  exists s', do_ccall c s = Ret s' /\ state_ok s' /\ forall i, (i < 4)%nat -> nth i (ancillary s') [] = holds memory (pre ++ [c]) i.
Proof.
  intros memory pre c s [TS TM] OK H. destruct c as [k fs n|res errno msgs out]; cbn [do_ccall ccall_ok] in *.
  - destruct OK as [TF N]. unfold write_a.
    destruct (write_typed (fun msgs => k (combine msgs (ancillary s))) (ci_if s) fs n TS TF N) as (w & W & TW). rewrite W. cbn [bind].
    destruct (write_keeps _ _ _ _ _ W) as (_ & KC & _).
    eexists. split; [reflexivity|]. split; [split; auto|]. intros i I. unfold holds. rewrite received_in_app. cbn. rewrite app_nil_r.
    unfold ancillary in *. cbn [ci_if ci_control]. rewrite KC. apply H. exact I.
  - destruct OK as (RO & TF & CW). unfold read_a.
    destruct (read_typed res errno (map fst msgs) (ci_if s) out TS TF RO) as (r & R & TR & _). rewrite R. cbn [bind].
    rewrite read_eq in R by auto. cbn zeta in R. pose proof TS as (_ & _ & LC). pose proof TM as (LM & _).
    eexists. split; [reflexivity|]. destruct (Z.leb_spec res 0) as [Q|Q].
    + split; [split; auto|]. intros i I. assert (rd_if r = ci_if s) as E by (inversion R; reflexivity).
      unfold holds. rewrite received_in_app. cbn. destruct (Z.ltb_spec 0 res); [lia|]. cbn. rewrite app_nil_r.
      unfold ancillary in *. cbn [ci_if ci_control]. rewrite E. apply H. exact I.
    + destruct RO as (R4 & _ & RL). specialize (RL Q). rewrite map_length in RL.
      rewrite (firstn_all2 (n := Z.to_nat res)) by (rewrite map_length; lia).
      rewrite (firstn_all2 (n := RxFramesLen)) by (rewrite map_length; unfold RxFramesLen; lia).
      split; [split; [exact TR|now apply receive_control_typed]|].
      intros i I. assert (E : if_ctl (rd_if r) = receive_ctl (map fst msgs) (if_ctl (ci_if s))) by (inversion R; reflexivity).
      unfold ancillary in *. cbn [ci_if ci_control]. rewrite E.
      change (fun x => firstn (Z.to_nat (snd x)) (fst x)) with attached in *.
      rewrite receive_attached by (auto; lia).
      unfold holds. rewrite received_in_app. cbn. destruct (Z.ltb_spec 0 res); [|lia].
      destruct (nth_error msgs i) as [x|]; cbn [app]; [now rewrite latest_snoc|]. rewrite app_nil_r. apply H. exact I.
Qed.

Lemma ccalls_run : forall memory cs pre s, state_ok s -> Forall ccall_ok cs ->
  (forall i, (i < 4)%nat -> nth i (ancillary s) [] = holds memory pre i) ->
  exists s', do_ccalls cs s = Ret s' /\ state_ok s' /\ forall i, (i < 4)%nat -> nth i (ancillary s') [] = holds memory (pre ++ cs) i.
Proof.
  intros memory. induction cs as [|c cs IH]; intros pre s OK F H; cbn [do_ccalls].
  - exists s. rewrite app_nil_r. auto.
  - inversion F; subst. destruct (ccall_step memory pre c s OK H2 H) as (s1 & -> & OK1 & H1). cbn [bind].
    destruct (IH (pre ++ [c]) s1 OK1 H3 H1) as (s2 & E & OK2 & H2'). exists s2. rewrite <- app_assoc in H2'. auto.
Qed.

Lemma make_ok : forall memory index name fd, memory_typed memory -> state_ok (ciface_make memory index name fd) /\
  forall i, (i < 4)%nat -> nth i (ancillary (ciface_make memory index name fd)) [] = holds memory [] i.
Proof.
  intros memory index name fd [L F]. split; [split; [apply iface_make_typed|split; auto]|].
  destruct memory as [|a [|b [|c [|d [|? ?]]]]]; try discriminate.
  intros i I. unfold ancillary, ciface_make, iface_make, holds. cbn [ci_control ci_if if_ctl repeat RxFramesLen combine map].
  change (latest (received_in i [])) with (@None (kmsg * list Z)). cbn iota.
  assert (X : forall x : list Z, length x = 32%nat -> firstn (Z.to_nat ControlSize) x = x).
  { intros x Q. apply firstn_all2. change (Z.to_nat ControlSize) with 32%nat. lia. }
  inversion F as [|? ? F1 G1]; subst. inversion G1 as [|? ? F2 G2]; subst. inversion G2 as [|? ? F3 G3]; subst. inversion G3 as [|? ? F4 G4]; subst.
  cbn [fst snd]. rewrite !X by auto. reflexivity.
Qed.

Lemma history : forall memory index name fd cs, memory_typed memory -> Forall ccall_ok cs ->
  exists s, do_ccalls cs (ciface_make memory index name fd) = Ret s /\ state_ok s /\
    forall i, (i < 4)%nat -> nth i (ancillary s) [] = holds memory cs i.
Proof.
  intros memory index name fd cs M F. destruct (make_ok memory index name fd M) as [OK H].
  destruct (ccalls_run memory cs [] _ OK F H) as (s & E & OKs & Hs). eauto.
Qed.

Lemma ancillary_length : forall s, state_ok s -> length (ancillary s) = 4%nat.
Proof. intros s [(_ & _ & LC) [LM _]]. unfold ancillary. rewrite map_length, combine_length, LC, LM. reflexivity. Qed.

(** What a write hands over. *)
Lemma write_handed : forall k s fs n, state_ok s -> frames_typed fs -> (1 <= n <= 4)%nat ->
  exists w s' sent, write_a k s fs n = Ret (CWriteOut w (Some (combine sent (ancillary s))), s') /\ wr_sent w = Some sent /\ length sent = n /\
    write (fun msgs => k (combine msgs (ancillary s))) (ci_if s) fs n = Ret w.
Proof.
  intros k s fs n [TS TM] TF N. unfold write_a.
  destruct (write_typed (fun msgs => k (combine msgs (ancillary s))) (ci_if s) fs n TS TF ltac:(lia)) as (w & W & TW). rewrite W. cbn [bind].
  pose proof W as W'. rewrite write_eq in W' by (auto; lia). cbn beta in W'.
  set (sent := firstn n (buf_after (ci_if s) fs n)) in *.
  assert (LS : length sent = n) by (apply sent_length; auto; lia).
  assert (WS : wr_sent w = Some sent).
  { destruct (k (combine sent (ancillary s))) as [res errno]. destruct (res <=? 0); [|destruct (res <? Z.of_nat n)]; inversion W'; reflexivity. }
  rewrite WS. do 3 eexists. split; [reflexivity|]. auto.
Qed.

Lemma handed : forall memory index name fd cs k fs n, memory_typed memory -> Forall ccall_ok cs -> frames_typed fs -> (1 <= n <= 4)%nat ->
  exists s w s' sent, do_ccalls cs (ciface_make memory index name fd) = Ret s /\
    write_a k s fs n = Ret (CWriteOut w (Some sent), s') /\ length sent = n /\ wr_sent w = Some (map fst sent) /\
    forall i, (i < n)%nat -> nth_error (map snd sent) i = Some (holds memory cs i).
Proof.
  intros memory index name fd cs k fs n M F TF N. destruct (history memory index name fd cs M F) as (s & E & OK & H).
  destruct (write_handed k s fs n OK TF N) as (w & s' & sent & W & WS & LS & _). pose proof (ancillary_length s OK) as LA.
  exists s, w, s', (combine sent (ancillary s)). split; [exact E|]. split; [exact W|]. split; [rewrite combine_length; lia|]. split.
  - rewrite WS. f_equal. clear - LS LA N. assert (L : (length sent <= length (ancillary s))%nat) by lia. revert L. generalize (ancillary s).
    clear. induction sent as [|x sent IH]; intros [|y l] L; cbn in *; try reflexivity; [lia|]. f_equal. apply IH. lia.
  - intros i I. rewrite <- H by lia.
    assert (L : (length sent <= length (ancillary s))%nat) by lia. revert L. assert (I' : (i < length sent)%nat) by lia. revert i I' I. generalize (ancillary s).
    clear. intros l i I _. revert l i I. induction sent as [|x sent IH]; intros [|y l] [|i] I L; cbn in *; try lia; [reflexivity|]. apply IH; lia.
Qed.

(** ** A kernel that examines ancillary data *)
Lemma bytes_of_length : forall n z, length (bytes_of n z) = n.
Proof. induction n; intros z; cbn [bytes_of length]; auto. Qed.
Lemma sendable_step : forall f u b, sendable (S f) u b =
  if (length b <? 16)%nat then true
  else
    let len := value (firstn 8 b) in
    let level := value (firstn 4 (skipn 8 b)) in
    let type := value (firstn 4 (skipn 12 b)) in
    (16 <=? len) && (len <=? Z.of_nat (length b)) &&
    ((negb (level =? SOL_SOCKET)) || u type (firstn (Z.to_nat len - 16) (skipn 16 b))) &&
    sendable f u (skipn (Z.to_nat (align8 len)) b).
Proof. reflexivity. Qed.
Lemma timestamp_refused : forall understood sec usec, (forall data, understood SO_TIMESTAMP data = false) ->
  sendable (length (timestamp_bytes sec usec)) understood (timestamp_bytes sec usec) = false.
Proof.
  intros u sec usec U. unfold timestamp_bytes.
  change (bytes_of 8 32 ++ bytes_of 4 SOL_SOCKET ++ bytes_of 4 SO_TIMESTAMP ++ bytes_of 8 sec ++ bytes_of 8 usec)
    with ([32; 0; 0; 0; 0; 0; 0; 0; 1; 0; 0; 0; 29; 0; 0; 0] ++ bytes_of 8 sec ++ bytes_of 8 usec).
  assert (L : length (bytes_of 8 sec ++ bytes_of 8 usec) = 16%nat) by (rewrite app_length, !bytes_of_length; reflexivity).
  set (t := bytes_of 8 sec ++ bytes_of 8 usec) in *. clearbody t. set (b := [_; _; _; _; _; _; _; _; _; _; _; _; _; _; _; _] ++ t).
  assert (LB : length b = 32%nat) by (unfold b; rewrite app_length, L; reflexivity).
  rewrite LB, sendable_step, LB. change (32 <? 16)%nat with false. cbn iota zeta.
  change (firstn 8 b) with [32; 0; 0; 0; 0; 0; 0; 0]. change (firstn 4 (skipn 8 b)) with [1; 0; 0; 0].
  change (firstn 4 (skipn 12 b)) with [29; 0; 0; 0].
  change (value [32; 0; 0; 0; 0; 0; 0; 0]) with 32. change (value [1; 0; 0; 0]) with SOL_SOCKET. change (value [29; 0; 0; 0]) with SO_TIMESTAMP.
  rewrite U, Z.eqb_refl. cbn [negb orb]. now rewrite andb_false_r, andb_false_l.
Qed.

Lemma holds_stamped : forall memory cs i, Forall stamped_call cs -> received_in i cs <> [] ->
  exists sec usec, holds memory cs i = timestamp_bytes sec usec.
Proof.
  intros memory cs i S R. unfold holds. destruct (exists_last R) as (l & x & E). rewrite E, latest_snoc.
  assert (I : In x (received_in i cs)) by (rewrite E; apply in_or_app; right; now left).
  unfold received_in in I. apply in_flat_map in I. destruct I as (c & IC & IX). rewrite Forall_forall in S. specialize (S c IC).
  destruct c as [|res errno msgs out]; [contradiction|]. destruct (0 <? res); [|contradiction].
  destruct (nth_error msgs i) as [y|] eqn:NE; [|contradiction]. destruct IX as [-> |[]]. cbn in S. rewrite Forall_forall in S.
  destruct (S x (nth_error_In _ _ NE)) as (_ & _ & sec & usec & _ & _ & W). eauto.
Qed.

Lemma refused_write : forall understood k s fs n, state_ok s -> frames_typed fs -> (1 <= n <= 4)%nat -> examining understood k ->
  sendable (length (nth 0 (ancillary s) [])) understood (nth 0 (ancillary s) []) = false ->
  exists w s', write_a k s fs n = Ret (w, s') /\ wr_result (cw_out w) = Failure /\ wr_count (cw_out w) = 0.
Proof.
  intros u k s fs n OK TF N [U EX] B. pose proof (ancillary_length s OK) as LA. destruct (write_handed k s fs n OK TF N) as (w & s' & sent & W & WS & LS & WE).
  exists (CWriteOut w (Some (combine sent (ancillary s)))), s'. split; [exact W|]. cbn [cw_out]. destruct OK as [TS TM].
  rewrite write_eq in WE by (auto; lia). cbn beta in WE.
  set (sn := firstn n (buf_after (ci_if s) fs n)) in *.
  assert (LS' : length sn = n) by (apply sent_length; auto; lia).
  destruct sn as [|c0 sn]; [cbn in LS'; lia|]. destruct (ancillary s) as [|a0 al]; [discriminate|]. cbn [combine] in WE. cbn [nth] in B.
  rewrite EX in WE by exact B. cbn in WE. assert (E : w = WriteOut (set_buf (ci_if s) (buf_after (ci_if s) fs n)) Failure 0 (Some (c0 :: sn))) by congruence.
  rewrite E. auto.
Qed.

Lemma never_again : forall memory index name fd cs understood k fs n, memory_typed memory -> Forall ccall_ok cs -> Forall stamped_call cs ->
  received_in 0 cs <> [] -> examining understood k -> frames_typed fs -> (1 <= n <= 4)%nat ->
  exists s w s', do_ccalls cs (ciface_make memory index name fd) = Ret s /\
    write_a k s fs n = Ret (w, s') /\ wr_result (cw_out w) = Failure /\ wr_count (cw_out w) = 0.
Proof.
  intros memory index name fd cs u k fs n M F S R EX TF N. destruct (history memory index name fd cs M F) as (s & E & OK & H).
  destruct (holds_stamped memory cs 0 S R) as (sec & usec & HS).
  assert (B : sendable (length (nth 0 (ancillary s) [])) u (nth 0 (ancillary s) []) = false)
    by (rewrite H, HS by lia; apply timestamp_refused; apply EX).
  destruct (refused_write u k s fs n OK TF N EX B) as (w & s' & W & A1 & A2). eauto 8.
Qed.

Lemma fresh_refused : forall memory index name fd understood k fs n, memory_typed memory -> nth 0 memory [] = repeat 0 32 ->
  examining understood k -> frames_typed fs -> (1 <= n <= 4)%nat ->
  exists w s', write_a k (ciface_make memory index name fd) fs n = Ret (w, s') /\ wr_result (cw_out w) = Failure /\ wr_count (cw_out w) = 0.
Proof.
  intros memory index name fd u k fs n M Z0 EX TF N. destruct (make_ok memory index name fd M) as [OK H].
  apply (refused_write u k _ fs n OK TF N EX). rewrite H by lia. unfold holds.
  change (latest (received_in 0 [])) with (@None (kmsg * list Z)). cbn iota. rewrite Z0. reflexivity.
Qed.

(** ** Room for the receive time *)
Lemma stamped_room : forall msgs ctl, Forall came_with msgs -> Forall stamped_message msgs -> Forall (eq 32) ctl ->
  Forall (eq 32) (receive_ctl (map fst msgs) ctl).
Proof.
  induction msgs as [|[m w] msgs IH]; intros ctl C S F; cbn [map receive_ctl]; [exact F|]. destruct ctl as [|l ctl]; [exact F|].
  inversion C as [|? ? [C1 _] C3]; subst. inversion S as [|? ? (st & k & sec & usec & _ & _ & W) S2]; subst. inversion F; subst.
  constructor; [|auto]. cbn [fst snd] in *. rewrite C1, W. unfold timestamp_bytes. rewrite !app_length, !bytes_of_length. reflexivity.
Qed.
Lemma history_room : forall cs s s', state_ok s -> Forall ccall_ok cs -> Forall stamped_call cs -> Forall (eq 32) (if_ctl (ci_if s)) ->
  do_ccalls cs s = Ret s' -> Forall (eq 32) (if_ctl (ci_if s')).
Proof.
  induction cs as [|c cs IH]; intros s s' OK F S R E; cbn [do_ccalls] in E; [congruence|].
  inversion F as [|? ? F1 F2]; subst. inversion S as [|? ? S1 S2]; subst.
  apply bind_ret_inv in E. destruct E as (s1 & E1 & E).
  assert (X : state_ok s1 /\ Forall (eq 32) (if_ctl (ci_if s1))); [|destruct X; eapply (IH s1 s'); eauto].
  assert (O1 : state_ok s1).
  { destruct (ccall_step (ancillary s) [] c s OK F1) as (s2 & E2 & O2 & _); [reflexivity|]. assert (s1 = s2) as -> by congruence. exact O2. }
  split; [exact O1|]. destruct OK as [TS TM]. destruct c as [k fs n|res errno msgs out]; cbn [do_ccall ccall_ok stamped_call] in *.
  - apply bind_ret_inv in E1. destruct E1 as ([w s2] & W & Q). unfold write_a in W. apply bind_ret_inv in W. destruct W as (w1 & W & Q2).
    destruct (write_keeps _ _ _ _ _ W) as (_ & KC & _). assert (s1 = CIface (wr_if w1) (ci_control s)) as -> by congruence. cbn [ci_if]. now rewrite KC.
  - destruct F1 as (RO & TF & CW). apply bind_ret_inv in E1. destruct E1 as ([r s2] & W & Q). unfold read_a in W. apply bind_ret_inv in W.
    destruct W as (r1 & W & Q2). assert (ci_if s1 = rd_if r1) as -> by (assert (s1 = s2) as -> by congruence; inversion Q2; reflexivity).
    rewrite read_eq in W by auto. cbn zeta in W. destruct (Z.leb_spec res 0).
    + assert (rd_if r1 = ci_if s) as -> by (inversion W; reflexivity). exact R.
    + assert (if_ctl (rd_if r1) = receive_ctl (map fst msgs) (if_ctl (ci_if s))) as -> by (inversion W; reflexivity).
      now apply stamped_room.
Qed.

Lemma latest_in : forall A (l : list A) x, latest l = Some x -> In x l.
Proof.
  intros A l x H. destruct l as [|a l]; [discriminate|]. assert (N : a :: l <> []) by discriminate. destruct (exists_last N) as (l' & y & E).
  rewrite E, latest_snoc in H. rewrite E. apply in_or_app. right. left. congruence.
Qed.

Lemma none_iff : forall memory cs n, memory_typed memory -> (n <= 4)%nat ->
  (forall i, (i < n)%nat -> holds memory cs i = []) <-> (forall i, (i < n)%nat -> exists m, latest (received_in i cs) = Some (m, [])).
Proof.
  intros memory cs n [LM FM] N. split; intros H i I; specialize (H i I); unfold holds in *.
  - destruct (latest (received_in i cs)) as [[m w]|]; [cbn [snd] in H; subst; eauto|].
    assert (L : length (nth i memory []) = 32%nat) by (rewrite Forall_forall in FM; apply FM; apply nth_In; lia). rewrite H in L. discriminate.
  - destruct H as [m ->]. reflexivity.
Qed.
