(** Proofs about what errno says when no interface came up. *)
From Coq Require Import ZArith Bool String List Lia.
From Verif Require Import Outcome ResultModel CanFrameModel SocketCanModel SocketCanProofs GroupModel GroupSpec GroupProofs
  ManagerModel ManagerSpec ManagerProofs ErrnoModel ErrnoSpec.
Import ListNotations.
Open Scope Z_scope.

(** ** Without errno it is the same function *)

Definition forget {A : Type} (o : option (outcome (A * Z))) : option (outcome A) :=
  match o with None => None | Some UB => Some UB | Some (Ret (x, _)) => Some (Ret x) end.

Lemma create_forget : forall m i name configs num a n w,
  match create_errno m i name configs num a n w with Ret (x, _) => Ret x | UB => UB end = createInterface m i name configs num a w.
Proof.
  intros. unfold create_errno, createInterface. destruct (openSocket _ _ _ _ _) as [fd tr]. destruct (fd <=? 0); [reflexivity|].
  destruct (configureFilters _ _ _ _ _) as [[r log]|]; cbn [bind]; [|reflexivity]. destruct (result_not r); reflexivity.
Qed.

Lemma loop_forget : forall m configs num kernel numbering fuel i t acc w e,
  forget (start_loop_errno fuel i t m configs num kernel numbering acc w e) = start_loop fuel i t m configs num kernel acc w.
Proof.
  intros m configs num kernel numbering. induction fuel as [|k IH]; intros i t acc w e; [reflexivity|].
  cbn [start_loop_errno start_loop]. destruct (i <? _); [|reflexivity]. destruct (nth_error _ _) as [name|]; [|reflexivity].
  rewrite <- (create_forget m i name configs num _ (numbering t (w_trace w)) w).
  destruct (create_errno _ _ _ _ _ _ _ _) as [[[[r o] w'] e']|]; [apply IH|reflexivity].
Qed.

Lemma start_forget : forall fuel m configs num kernel numbering out w e,
  forget (start_errno fuel m configs num kernel numbering out w e) = startInterfaceGroup fuel m configs num kernel out w.
Proof.
  intros. unfold start_errno, startInterfaceGroup. rewrite <- (loop_forget m configs num kernel numbering fuel 0 0 [] w e).
  destruct (start_loop_errno _ _ _ _ _ _ _ _ _ _ _) as [[[[[|s g] w'] e']|]|]; reflexivity.
Qed.

(** ** One attempt *)

(** errno once an obstacle with number [e] was met: [opened] if a socket is closed on the way out. *)
Definition said (a : answers) (n : numbers) (e : option Z) (errno : Z) : Prop :=
  match e with
  | Some x => errno = (if a_socket a <? 0 then x else ignored (n_close n) x)
  | None => errno = fold_left (fun e c => ignored c e) (ignored_calls a n) 0
  end.

Lemma skip : forall P e l x, ~ P -> stopped_by l x -> stopped_by ((P, e) :: l) x.
Proof.
  intros P e l x N (b & Q & c & -> & H & F). exists ((P, e) :: b), Q, c. split; [reflexivity|]. split; [exact H|].
  constructor; auto.
Qed.
Lemma stop : forall (P : Prop) e l, P -> stopped_by ((P, e) :: l) e.
Proof. intros P e l H. exists [], P, l. repeat split; auto. Qed.

Lemma fold_last : forall calls e0,
  (exists before e after, calls = before ++ Some e :: after /\ Forall (fun c => c = None) after /\
     fold_left (fun e c => ignored c e) calls e0 = e) \/
  (Forall (fun c => c = None) calls /\ fold_left (fun e c => ignored c e) calls e0 = e0).
Proof.
  induction calls as [|c l IH]; intros e0; [right; auto|]. cbn [fold_left].
  destruct (IH (ignored c e0)) as [(b & e & a & -> & F & E)|[F E]].
  - left. exists (c :: b), e, a. auto.
  - destruct c as [x|]; cbn [ignored] in E.
    + left. exists [], x, l. auto.
    + right. split; [constructor; auto|exact E].
Qed.

Lemma last_unique : forall calls x y, last_failed calls x -> last_failed calls y -> x = y.
Proof.
  induction calls as [|c l IH] using rev_ind; intros x y X Y.
  - destruct X as [(b & a & E & _)|[-> _]]; [destruct b; discriminate|]. destruct Y as [(b & a & E & _)|[-> _]]; [destruct b; discriminate|reflexivity].
  - assert (K : forall z, last_failed (l ++ [c]) z -> match c with Some d => z = d | None => last_failed l z end).
    { intros z [(b & a & E & F)|[-> F]].
      - destruct a as [|a0 a] using rev_ind.
        + apply app_inj_tail in E. destruct E as [_ ->]. reflexivity.
        + clear IHa. rewrite app_comm_cons, app_assoc in E. apply app_inj_tail in E. destruct E as [-> <-].
          apply Forall_app in F. destruct F as [F1 F2]. inversion F2; subst. left. eauto.
      - apply Forall_app in F. destruct F as [F1 F2]. inversion F2; subst. right. auto. }
    apply K in X, Y. destruct c; [congruence|auto].
Qed.

Lemma quiet_calls : forall a n, quiet n -> fold_left (fun e c => ignored c e) (ignored_calls a n) 0 = 0.
Proof.
  intros a n (A & B & C & D & E). unfold ignored_calls. rewrite A, B, C, D, E. destruct (_ <? 0); [reflexivity|].
  destruct (_ =? 0); reflexivity.
Qed.

Lemma quiet_close : forall n x, quiet n -> ignored (n_close n) x = x.
Proof. intros n x (_ & _ & _ & _ & A). now rewrite A. Qed.

Lemma create_stopped : forall m i name configs num a n w r o w' e, configs_ok configs num ->
  create_errno m i name configs num a n w = Ret (r, o, w', e) -> isFailure r = true ->
  exists x, stopped_by (obstacles m name configs num a n) x /\ said a n x e.
Proof.
  intros m i name configs num a n w r o w' e OK E R. unfold create_errno, openSocket, open_errno in E. unfold obstacles, said.
  destruct (Z.ltb_spec (a_socket a) 0) as [S|S].
  { destruct (Z.leb_spec (a_socket a) 0); [|lia]. injection E as _ _ _ <-. eexists. split; [apply stop; exact S|reflexivity]. }
  destruct (m_canfd m && negb (a_canfd a =? 0)) eqn:E1.
  { injection E as _ _ _ <-. apply andb_true_iff in E1. destruct E1 as [E1 E1']. apply negb_true_iff, Z.eqb_neq in E1'.
    eexists. split; [apply skip; [lia|]; apply stop; auto|reflexivity]. }
  assert (N1 : ~ (m_canfd m = true /\ a_canfd a <> 0)).
  { intros [H1 H2]. rewrite H1 in E1. cbn in E1. apply negb_false_iff, Z.eqb_eq in E1. contradiction. }
  destruct (m_own m && negb (a_own a =? 0)) eqn:E2.
  { injection E as _ _ _ <-. apply andb_true_iff in E2. destruct E2 as [E2 E2']. apply negb_true_iff, Z.eqb_neq in E2'.
    eexists. split; [apply skip; [lia|]; apply skip; [exact N1|]; apply stop; auto|reflexivity]. }
  assert (N2 : ~ (m_own m = true /\ a_own a <> 0)).
  { intros [H1 H2]. rewrite H1 in E2. cbn in E2. apply negb_false_iff, Z.eqb_eq in E2. contradiction. }
  unfold IFNAMSIZ in E. destruct (Z.leb_spec 16 (Z.of_nat (String.length name))) as [L|L].
  { injection E as _ _ _ <-. eexists. split; [apply skip; [lia|]; apply skip; [exact N1|]; apply skip; [exact N2|]; apply stop; exact L|reflexivity]. }
  destruct (Z.ltb_spec (a_ioctl a) 0) as [IO|IO]; cbn [orb] in E.
  { injection E as _ _ _ <-. eexists. split; [do 4 (apply skip; [first [exact N1|exact N2|lia]|]); apply stop; exact IO|reflexivity]. }
  destruct (Z.ltb_spec (a_ifindex a) 0) as [IX|IX].
  { injection E as _ _ _ <-. exists None. split; [do 5 (apply skip; [first [exact N1|exact N2|lia]|]); apply stop; exact IX|].
    unfold ignored_calls. destruct (Z.ltb_spec (a_ifindex a) 0); [reflexivity|lia]. }
  destruct (Z.ltb_spec (a_bind a) 0) as [B|B].
  { injection E as _ _ _ <-. eexists. split; [do 6 (apply skip; [first [exact N1|exact N2|lia]|]); apply stop; exact B|reflexivity]. }
  destruct (Z.eqb_spec (a_error a) 0) as [ER|ER]; cbn [negb] in E.
  2:{ injection E as _ _ _ <-. eexists. split; [do 7 (apply skip; [first [exact N1|exact N2|lia]|]); apply stop; exact ER|reflexivity]. }
  destruct (Z.leb_spec (a_socket a) 0) as [S0|S0].
  { injection E as _ _ _ <-. exists None. split; [do 8 (apply skip; [first [exact N1|exact N2|lia]|]); apply stop; lia|].
    unfold ignored_calls. destruct (Z.ltb_spec (a_ifindex a) 0); [lia|]. destruct (Z.eqb_spec (a_socket a) 0); [reflexivity|lia]. }
  destruct (configure_form (a_filter a) (a_socket a) configs num OK) as (r1 & add & D & F). rewrite F in E. cbn [bind] in E.
  destruct D as [->|D].
  { change (result_not Success) with false in E. cbn iota in E. injection E as <- _ _ _. discriminate. }
  unfold isFailure in D. rewrite D in E. injection E as <- _ _ <-.
  (* BadArgument or UnknownInternalError *)
  assert (K : (configs = None /\ num <> 0%nat /\ r1 = BadArgument) \/ (~ (configs = None /\ num <> 0%nat) /\ r1 = UnknownInternalError)).
  { specialize (F []). unfold configureFilters in F. destruct num as [|k].
    - rewrite andb_false_r in F. cbn [andb Nat.eqb] in F. right. split; [tauto|].
      destruct (a_filter a [] 0 =? 0); cbn [negb] in F; injection F as <- _; [discriminate|reflexivity].
    - destruct configs as [cs|].
      + right. split; [intros [Q _]; discriminate|]. cbn [andb Nat.eqb negb] in F. destruct (convert_filters _ cs) as [fs|]; [|discriminate].
        cbn [bind] in F. destruct (_ =? 0) in F; cbn [negb] in F; injection F as <- _; [discriminate|reflexivity].
      + left. split; [reflexivity|]. split; [discriminate|]. cbn [configs_ok] in OK. cbn [andb Nat.eqb negb] in F.
        unfold CAN_RAW_FILTER_MAX in F. destruct (Z.leb_spec (Z.of_nat (Datatypes.S k)) 512); [|lia]. now injection F as <- _. }
  destruct K as [(K1 & K2 & ->)|(K & ->)].
  - exists None. split; [do 9 (apply skip; [first [exact N1|exact N2|lia]|]); apply stop; auto|].
    unfold ignored_calls. destruct (Z.ltb_spec (a_ifindex a) 0); [lia|]. destruct (Z.eqb_spec (a_socket a) 0); [lia|reflexivity].
  - eexists. split; [do 9 (apply skip; [first [exact N1|exact N2|lia]|]); apply skip; [exact K|]; apply stop; exists (add ++ []); apply F|].
    reflexivity.
Qed.

(** ** The loop: the last attempt decides *)

Lemma create_trace : forall m i name configs num a n w r o w' e, configs_ok configs num ->
  create_errno m i name configs num a n w = Ret (r, o, w', e) ->
  (exists more, w_trace w' = w_trace w ++ more) /\ (o = None -> isFailure r = true) /\ (o <> None -> r = Success).
Proof.
  intros m i name configs num a n w r o w' e OK E. assert (C := create_forget m i name configs num a n w). rewrite E in C.
  destruct (create_cases m i name configs num a w OK) as (r1 & o1 & w1 & C1 & D). rewrite <- C in C1. injection C1 as <- <- <-.
  destruct D as [(-> & R & _ & T)|(-> & -> & _ & T)].
  - split; [|split; auto; congruence]. destruct T as [T|[[_ T]|[_ T]]]; rewrite T, <- ?app_assoc; eauto. exists []. now rewrite app_nil_r.
  - split; [rewrite T; eauto|]. split; auto; discriminate.
Qed.

Lemma loop_last : forall m configs num kernel numbering, configs_ok configs num -> (length (m_required m) <= 255)%nat ->
  forall todo name done fuel acc w e0 w' e, m_required m = done ++ todo ++ [name] ->
  start_loop_errno fuel (Z.of_nat (length done)) (length done) m configs num kernel numbering acc w e0 = Some (Ret ([], w', e)) ->
  exists tr more i r w1, w_trace w' = tr ++ more /\ w_trace w1 = tr /\ isFailure r = true /\
    create_errno m i name configs num (kernel (length done + length todo)%nat tr) (numbering (length done + length todo)%nat tr) w1
      = Ret (r, None, w', e).
Proof.
  intros m configs num kernel numbering OK LEN. induction todo as [|x todo IH]; intros name done fuel acc w e0 w' e E L.
  - cbn [app] in E. destruct fuel as [|k]; [discriminate|]. cbn [start_loop_errno] in L.
    assert (LL : length (m_required m) = S (length done)) by (rewrite E, app_length; cbn [length]; lia).
    destruct (Z.ltb_spec (Z.of_nat (length done)) (Z.of_nat (length (m_required m)))); [|lia].
    assert (NE : nth_error (m_required m) (Z.to_nat (Z.of_nat (length done))) = Some name).
    { rewrite Nat2Z.id, E, nth_error_app2, Nat.sub_diag by lia. reflexivity. }
    rewrite NE in L. destruct (create_errno _ _ _ _ _ _ _ _) as [[[[r o] w1] e1]|] eqn:C; [|discriminate].
    destruct k as [|k]; [discriminate|]. cbn [start_loop_errno] in L. rewrite Z.mod_small in L by lia.
    destruct (Z.ltb_spec (Z.of_nat (length done) + 1) (Z.of_nat (length (m_required m)))); [lia|].
    destruct (create_trace _ _ _ _ _ _ _ _ _ _ _ _ OK C) as ([more T] & O1 & O2).
    injection L as A <- <-. destruct o as [s|].
    + rewrite (O2 ltac:(discriminate)) in A. cbn in A. now apply app_eq_nil in A.
    + exists (w_trace w), more, (Z.of_nat (length done)), r, w. rewrite Nat.add_0_r. auto.
  - destruct fuel as [|k]; [discriminate|]. cbn [start_loop_errno] in L.
    assert (LL : length (m_required m) = (length done + S (length todo + 1))%nat).
    { rewrite E, !app_length. cbn [length]. lia. }
    destruct (Z.ltb_spec (Z.of_nat (length done)) (Z.of_nat (length (m_required m)))); [|lia].
    assert (NE : nth_error (m_required m) (Z.to_nat (Z.of_nat (length done))) = Some x).
    { rewrite Nat2Z.id, E, nth_error_app2, Nat.sub_diag by lia. reflexivity. }
    rewrite NE in L. destruct (create_errno _ _ _ _ _ _ _ _) as [[[[r o] w1] e1]|] eqn:C; [|discriminate].
    rewrite Z.mod_small in L by lia.
    replace (Z.of_nat (length done) + 1) with (Z.of_nat (length (done ++ [x]))) in L by (rewrite app_length; cbn [length]; lia).
    replace (S (length done)) with (length (done ++ [x])) in L by (rewrite app_length; cbn [length]; lia).
    destruct (IH name (done ++ [x]) k _ w1 e1 w' e ltac:(rewrite <- app_assoc; exact E) L) as (tr & more & i & r' & w2 & T & Q).
    exists tr, more, i, r', w2.
    replace (length (done ++ [x]) + length todo)%nat with (length done + length (x :: todo))%nat in Q
      by (rewrite app_length; cbn [length]; lia).
    auto.
Qed.

Lemma start_last : forall fuel m configs num kernel numbering out w e0 out' w' e before name, configs_ok configs num ->
  (length (m_required m) <= 255)%nat -> m_required m = before ++ [name] ->
  start_errno fuel m configs num kernel numbering out w e0 = Some (Ret (NotFound, out', w', e)) ->
  exists tr more, w_trace w' = tr ++ more /\
    let a := kernel (length before) tr in let n := numbering (length before) tr in
    exists x, stopped_by (obstacles m name configs num a n) x /\ said a n x e.
Proof.
  intros fuel m configs num kernel numbering out w e0 out' w' e before name OK LEN E H. unfold start_errno in H.
  destruct (start_loop_errno _ _ _ _ _ _ _ _ _ _ _) as [[[[[|s g] w1] e1]|]|] eqn:L; try discriminate.
  2:{ injection H as A _ _ _. destruct (_ <=? _) in A; discriminate. }
  injection H as _ <- <-.
  destruct (loop_last m configs num kernel numbering OK LEN before name [] fuel [] w e0 w1 e1 E L)
    as (tr & more & i & r & w2 & T & T2 & R & C).
  exists tr, more. split; [exact T|]. eapply create_stopped; eauto.
Qed.

(** An obstacle is met once: its number is determined. *)
Lemma stopped_unique : forall l x y, stopped_by l x -> stopped_by l y -> x = y.
Proof.
  induction l as [|[P e] l IH]; intros x y (b1 & P1 & c1 & E1 & H1 & F1) (b2 & P2 & c2 & E2 & H2 & F2).
  - destruct b1; discriminate.
  - destruct b1 as [|p1 b1], b2 as [|p2 b2]; cbn [app] in E1, E2.
    + congruence.
    + injection E1 as -> -> _. injection E2 as <- _. inversion F2; subst. contradiction.
    + injection E2 as -> -> _. injection E1 as <- _. inversion F1; subst. contradiction.
    + injection E1 as <- ->. injection E2 as <- E2. apply (IH x y).
      * exists b1, P1, c1. inversion F1; auto.
      * exists b2, P2, c2. inversion F2; auto.
Qed.

Lemma stopped_positive : forall m name configs num a n x, positive a n -> stopped_by (obstacles m name configs num a n) (Some x) -> 0 < x.
Proof.
  intros m name configs num a n x (P0 & P1 & P2 & P3 & P4 & P5 & P6) (b & P & c & E & H & F). unfold obstacles in E.
  do 11 (destruct b as [|? b]; [first [discriminate E|injection E as EP EX _; subst P; lia]|injection E as _ E]).
  destruct b; discriminate.
Qed.
