(** Proofs about select and the sockets' queues. *)
From Coq Require Import ZArith Bool String List Lia.
From Verif Require Import Outcome ResultModel CInt CanFrameModel SocketCanModel SocketCanSpec SocketCanProofs GroupModel GroupSpec GroupProofs
  ManagerModel ManagerSpec ClientModel ClientSpec ClientProofs TrafficSpec TrafficProofs WaitSpec.
Import ListNotations.
Open Scope Z_scope.

Lemma select_request : forall P ppoll g t ignore r req, select P ppoll g t ignore = Ret (r, req) ->
  pr_fds req = map (fun s => (getSocketDescriptor s, if ignore then 3 else 7)) g.
Proof.
  intros P ppoll g t ignore r req E. unfold select in E. cbn zeta in E. apply bind_ret_inv in E. destruct E as (nsec & _ & E).
  assert (R : req = PollRequest (map (fun s => (getSocketDescriptor s, if negb ignore then Z.lor (Z.lor POLLIN POLLPRI) POLLOUT else Z.lor POLLIN POLLPRI)) g)
                      (Z.quot t 1000000) nsec).
  { destruct (ppoll _) as [res rv]. destruct (res =? 0); [|destruct (res <? 0); [|destruct (existsb _ _)]]; congruence. }
  rewrite R. cbn [pr_fds]. destruct ignore; reflexivity.
Qed.

Lemma bits_zero : forall v, 0 <= v -> (forall b, 0 <= b -> Z.testbit v b = false) -> v = 0.
Proof. intros v N B. apply Z.bits_inj_0. intros b. destruct (Z.neg_nonneg_cases b); [now apply Z.testbit_neg_r|auto]. Qed.

Lemma ev_bits : forall b, (Z.testbit 3 b = true -> b = 0 \/ b = 1) /\ (Z.testbit 7 b = true -> b = 0 \/ b = 1 \/ b = 2).
Proof.
  intros b. destruct (Z.neg_nonneg_cases b) as [N|N]; [rewrite !Z.testbit_neg_r by lia; split; discriminate|].
  split; intros T.
  - assert (b <= Z.log2 3). { destruct (Z.le_gt_cases b (Z.log2 3)); auto. rewrite Z.bits_above_log2 in T by lia. discriminate. }
    change (Z.log2 3) with 1 in *. lia.
  - assert (b <= Z.log2 7). { destruct (Z.le_gt_cases b (Z.log2 7)); auto. rewrite Z.bits_above_log2 in T by lia. discriminate. }
    change (Z.log2 7) with 2 in *. lia.
Qed.

Lemma events_none : forall rvs, length (List.filter has_event rvs) = 0%nat -> Forall (eq 0) rvs.
Proof.
  induction rvs as [|rv rvs IH]; intros L; [constructor|]. cbn [List.filter] in L. unfold has_event at 1 in L.
  destruct (Z.eqb_spec rv 0); cbn [negb length] in L; [constructor; auto|discriminate].
Qed.
Lemma events_some : forall rvs, (0 < length (List.filter has_event rvs))%nat -> exists j rv, nth_error rvs j = Some rv /\ rv <> 0.
Proof.
  induction rvs as [|rv rvs IH]; intros L; [cbn in L; lia|]. cbn [List.filter] in L. unfold has_event at 1 in L.
  destruct (Z.eqb_spec rv 0).
  - destruct (IH L) as (j & v & A & B). exists (S j), v. auto.
  - exists 0%nat, rv. auto.
Qed.

Lemma forall2_nth : forall A B (Q : A -> B -> Prop) l l' j b, Forall2 Q l l' -> nth_error l' j = Some b -> exists a, nth_error l j = Some a /\ Q a b.
Proof.
  intros A B Q l l' j b F. revert j. induction F as [|x y l l' X F IH]; intros [|j] N; cbn [nth_error] in *; try discriminate; eauto.
  injection N as <-. eauto.
Qed.
Lemma forall2_nth_l : forall A B (Q : A -> B -> Prop) l l' j a, Forall2 Q l l' -> nth_error l j = Some a -> exists b, nth_error l' j = Some b /\ Q a b.
Proof.
  intros A B Q l l' j b F. revert j. induction F as [|x y l l' X F IH]; intros [|j] N; cbn [nth_error] in *; try discriminate; eauto.
  injection N as <-. eauto.
Qed.
Lemma forall2_len : forall A B (Q : A -> B -> Prop) l l', Forall2 Q l l' -> length l = length l'.
Proof. induction 1; cbn [length]; congruence. Qed.

Lemma select_result : forall P ppoll g t ignore r req, select P ppoll g t ignore = Ret (r, req) ->
  r = if fst (ppoll req) =? 0 then SuccessTimeout else if fst (ppoll req) <? 0 then Failure
      else if existsb (fun rv => has rv 58) (firstn (length g) (snd (ppoll req))) then SuccessPartial else Success.
Proof.
  intros P ppoll g t ignore r req E. unfold select in E. cbn zeta in E. apply bind_ret_inv in E. destruct E as (nsec & _ & E).
  change (Z.lor POLLPRI (Z.lor POLLERR (Z.lor POLLHUP POLLNVAL))) with 58 in E.
  match type of E with context[ppoll ?q] => assert (R : req = q) end.
  { destruct (ppoll _) as [res rv]. destruct (res =? 0); [|destruct (res <? 0); [|destruct (existsb _ _)]]; congruence. }
  rewrite <- R in E. destruct (ppoll req) as [res rv]. cbn [fst snd].
  destruct (res =? 0); [|destruct (res <? 0); [|destruct (existsb _ _)]]; congruence.
Qed.

Lemma polled : forall P ppoll g t ignore r req k writable, select P ppoll g t ignore = Ret (r, req) ->
  polls k writable req (ppoll req) -> r <> Failure ->
  length (snd (ppoll req)) = length g /\ fst (ppoll req) = Z.of_nat (length (List.filter has_event (snd (ppoll req)))) /\
  forall i rv s, nth_error (snd (ppoll req)) i = Some rv -> nth_error g i = Some s ->
    0 <= rv /\ (Z.testbit rv 0 = true <-> waiting k (getSocketDescriptor s) <> []) /\
    (Z.testbit rv 2 = true <-> ignore = false /\ writable (getSocketDescriptor s)) /\
    forall b, Z.testbit rv b = true -> b = 0 \/ b = 2 \/ trouble rv.
Proof.
  intros P ppoll g t ignore r req k writable E A NF. pose proof (select_request _ _ _ _ _ _ _ E) as RQ.
  pose proof (select_result _ _ _ _ _ _ _ E) as RS. destruct A as [A|[A F]].
  - exfalso. apply NF. rewrite RS. destruct (Z.eqb_spec (fst (ppoll req)) 0); [lia|]. destruct (Z.ltb_spec (fst (ppoll req)) 0); [auto|lia].
  - rewrite RQ in F. split; [apply forall2_len in F; now rewrite map_length in F|]. split; [exact A|].
    intros i rv s N NG. destruct (forall2_nth _ _ _ _ _ _ _ F N) as ([fd ev] & NA & Q).
    rewrite nth_error_map, NG in NA. cbn [option_map] in NA. assert (fd = getSocketDescriptor s /\ ev = if ignore then 3 else 7) as [-> ->] by (split; congruence).
    cbn [fst snd] in Q. destruct Q as (Q0 & Q1 & Q2 & Q3). split; [exact Q0|]. split; [|split].
    + rewrite Q1. destruct ignore; cbn; intuition.
    + rewrite Q2. destruct ignore; cbn; intuition discriminate.
    + intros b T. destruct (Q3 b T) as [X|X].
      * destruct (ev_bits b) as [B3 B7]. destruct ignore; [apply B3 in X|apply B7 in X]; unfold trouble; intuition; subst; auto.
      * right. right. unfold trouble. intuition; subst; auto.
Qed.

Lemma select_ready : forall P ppoll g t ignore req k writable, select P ppoll g t ignore = Ret (Success, req) ->
  polls k writable req (ppoll req) ->
  exists i s, nth_error g i = Some s /\
    (waiting k (getSocketDescriptor s) <> [] \/ ignore = false /\ writable (getSocketDescriptor s)).
Proof.
  intros P ppoll g t ignore req k writable E A. destruct (polled _ _ _ _ _ _ _ _ _ E A ltac:(discriminate)) as (L & C & Q).
  destruct (select_classifies _ _ _ _ _ _ _ E L) as (_ & _ & _ & (CS & _) & _). destruct (CS eq_refl) as [CP NT].
  destruct (events_some (snd (ppoll req)) ltac:(lia)) as (i & rv & N & NZ).
  destruct (nth_error g i) as [s|] eqn:NG; [|apply nth_error_None in NG; assert (i < length (snd (ppoll req)))%nat by (apply nth_error_Some; congruence); lia].
  exists i, s. split; [exact NG|]. destruct (Q i rv s N NG) as (Q0 & Q1 & Q2 & Q3).
  destruct (Z.testbit rv 0) eqn:B0; [left; now apply Q1|]. destruct (Z.testbit rv 2) eqn:B2; [right; now apply Q2|].
  exfalso. apply NZ. apply bits_zero; [exact Q0|]. intros b _. destruct (Z.testbit rv b) eqn:B; [|reflexivity].
  destruct (Q3 b B) as [->|[->|T]]; try congruence. exfalso. apply NT. apply Exists_exists. exists rv. split; [eapply nth_error_In; eauto|exact T].
Qed.

Lemma select_timed_out : forall P ppoll g t ignore req k writable, select P ppoll g t ignore = Ret (SuccessTimeout, req) ->
  polls k writable req (ppoll req) ->
  forall i s, nth_error g i = Some s -> waiting k (getSocketDescriptor s) = [] /\ (ignore = false -> ~ writable (getSocketDescriptor s)).
Proof.
  intros P ppoll g t ignore req k writable E A i s NG. destruct (polled _ _ _ _ _ _ _ _ _ E A ltac:(discriminate)) as (L & C & Q).
  destruct (select_classifies _ _ _ _ _ _ _ E L) as ((CT & _) & _). specialize (CT eq_refl).
  assert (Z0 : Forall (eq 0) (snd (ppoll req))) by (apply events_none; lia).
  destruct (nth_error (snd (ppoll req)) i) as [rv|] eqn:N;
    [|apply nth_error_None in N; assert (i < length g)%nat by (apply nth_error_Some; congruence); lia].
  rewrite Forall_forall in Z0. pose proof (Z0 rv (nth_error_In _ _ N)) as R0. destruct (Q i rv s N NG) as (_ & Q1 & Q2 & _). subst rv.
  split.
  - destruct (waiting k (getSocketDescriptor s)) as [|x q] eqn:W; [reflexivity|]. destruct Q1 as [_ Q1]. discriminate Q1. discriminate.
  - intros I W. destruct Q2 as [_ Q2]. discriminate Q2. auto.
Qed.

(** A read of a socket with something in its queue does not answer that there is nothing. *)
Lemma read_finds : forall live m h c k i g s fuel res errno msgs out r count frames c' k', (length (m_required m) <= 255)%nat ->
  life live m h c k -> cl_group c = Some g -> nth_error g (Z.to_nat i) = Some s -> waiting k (getSocketDescriptor s) <> [] ->
  legal live (Read res errno msgs i out) c -> perform fuel m (Read res errno msgs i out) c = Some (Ret (WasRead r count frames, c')) ->
  effect (Read res errno msgs i out) (WasRead r count frames) c k k' ->
  r <> SuccessNothing /\
  (r = Success <-> exists p q, waiting k (getSocketDescriptor s) = p :: q /\ (length (waiting k' (getSocketDescriptor s)) <= length q)%nat).
Proof.
  intros live m h c k i g s fuel res errno msgs out r count frames c' k' LEN L G NE W LG E EF.
  assert (CO := history_ok _ _ _ _ LEN (life_history _ _ _ _ _ L)). pose proof LG as (_ & (I & _) & F & RO).
  destruct (perform_read _ _ _ _ _ _ _ _ _ _ E) as (g0 & g' & w & r0 & ct & fr & -> & -> & ER & RD & FD).
  injection ER as <- <- <-. cbn [cl_group] in G. assert (g0 = g) as -> by congruence.
  cbn [effect cl_group] in EF. rewrite NE in EF. destruct EF as (rest & RV & ->). cbn [waiting]. rewrite update_same.
  assert (TS : iface_typed s). { destruct CO as [_ X]. rewrite Forall_forall in X. apply X. eapply nth_error_In; eauto. }
  destruct (group_read_at _ _ _ _ _ _ _ _ _ _ _ I RD NE) as (rd & RR & R & _). destruct RV as [(P & Q & RL)|(P & Q & RV)].
  - destruct (read_positive res errno msgs s out TS F RO P) as (rd' & RD' & RS & _).
    assert (rd' = rd) by congruence. subst rd'. rewrite RS in R. subst r. split; [discriminate|]. split; [intros _|reflexivity].
    destruct msgs as [|m0 msgs]; [cbn in RL; lia|]. cbn [map app] in Q. rewrite Q. do 2 eexists. split; [reflexivity|]. rewrite app_length. lia.
  - destruct (read_negative res errno msgs s out P) as (rd' & RD' & _ & _ & _ & RN & X).
    assert (rd' = rd) by congruence. subst rd'. rewrite R. split.
    + intros N. apply RN in N. destruct N as [N1 N2]. exact (W (RV N1 N2)).
    + subst rest. split.
      * intros S. exfalso. rewrite S in RN, X. destruct X as [_ X]. destruct RN as [_ RN].
        destruct (Z.lt_decidable res 0) as [D1|D1]; [destruct (Z.eq_dec errno EWOULDBLOCK) as [D2|D2]|].
        -- specialize (RN (conj D1 D2)). discriminate.
        -- discriminate X. tauto.
        -- discriminate X. tauto.
      * intros (p & q & EQ & LL). rewrite EQ in LL. cbn [length] in LL. lia.
Qed.
