(** Proofs about running out of memory. *)
From Coq Require Import ZArith Bool String List Lia Permutation.
From Verif Require Import Outcome ResultModel CanFrameModel SocketCanModel SocketCanProofs GroupModel GroupSpec GroupProofs
  ManagerModel ManagerSpec ManagerProofs ClientModel ClientSpec ClientProofs OomModel OomSpec.
Import ListNotations.
Open Scope Z_scope.

(** ** Filters *)
Lemma convert_x_cases : forall fails n cs k, (n <= length cs)%nat ->
  convert_x fails k n cs = Ret None \/ convert_x fails k n cs = Ret (Some (map kconv (firstn n cs))).
Proof.
  intros fails. induction n as [|n IH]; intros cs k L; [right; reflexivity|]. destruct cs as [|fc cs]; [cbn in L; lia|].
  cbn [convert_x firstn map length] in *. destruct (fails k); [now left|]. destruct (IH cs (S k)) as [-> | ->]; [lia|left|right]; reflexivity.
Qed.
Lemma convert_x_enough : forall fails n cs k, (forall j, fails j = false) -> convert_x fails k n cs = let* fs := convert_filters n cs in Ret (Some fs).
Proof.
  intros fails. induction n as [|n IH]; intros cs k F; [reflexivity|]. destruct cs as [|fc cs]; [reflexivity|].
  cbn [convert_x convert_filters]. rewrite F, IH by auto. destruct (convert_filters n cs); reflexivity.
Qed.

(** Configuring returns as it would with enough memory, or throws and has done nothing. *)
Lemma configure_x_cases : forall fails ans fd configs n log, configs_ok configs n ->
  (exists x, configure_x fails ans fd configs n log = Ret (Returned x) /\ configureFilters ans fd configs n log = Ret x) \/
  configure_x fails ans fd configs n log = Ret (Threw log).
Proof.
  intros fails ans fd configs n log OK. unfold configure_x, configureFilters.
  destruct (_ && _ && _) eqn:N; [left; eexists; split; reflexivity|]. destruct (n =? 0)%nat eqn:Z0.
  - left. destruct (negb (ans _ _ =? _)); eexists; split; reflexivity.
  - destruct configs as [cs|].
    + cbn [configs_ok] in OK. rewrite convert_eq by auto. destruct (convert_x_cases fails n cs 0 OK) as [-> | ->]; cbn [bind]; [now right|].
      left. destruct (negb (ans _ _ =? _)); eexists; split; reflexivity.
    + exfalso. cbn [configs_ok] in OK. cbn [andb negb] in N. apply Z.leb_gt in N. unfold CAN_RAW_FILTER_MAX in N. lia.
Qed.
Lemma configure_x_enough : forall fails ans fd configs n log, (forall j, fails j = false) ->
  configure_x fails ans fd configs n log = let* x := configureFilters ans fd configs n log in Ret (Returned x).
Proof.
  intros fails ans fd configs n log F. unfold configure_x, configureFilters. destruct (_ && _ && _); [reflexivity|]. destruct (n =? 0)%nat.
  - destruct (negb (ans _ _ =? _)); reflexivity.
  - destruct configs as [cs|]; [|reflexivity]. rewrite convert_x_enough by auto. destruct (convert_filters n cs) as [fs|]; [|reflexivity].
    cbn [bind]. destruct (negb (ans _ _ =? _)); reflexivity.
Qed.

(** New entries of the filter log are for this descriptor. *)
Lemma configure_adds : forall ans fd configs n log r log', configureFilters ans fd configs n log = Ret (r, log') ->
  exists add, log' = add ++ log /\ Forall (fun e => fst e = fd) add.
Proof.
  intros ans fd configs n log r log' E. unfold configureFilters in E.
  assert (Q : log' = log \/ exists fs, log' = (fd, fs) :: log).
  { destruct (_ && _ && _); [injection E as <- <-; auto|]. destruct (n =? 0)%nat.
    - destruct (negb (ans _ _ =? _)); injection E as <- <-; [auto|]. right. eexists. reflexivity.
    - destruct configs as [cs|]; [|discriminate]. apply bind_ret_inv in E. destruct E as (fs & _ & E).
      destruct (negb (ans _ _ =? _)); injection E as <- <-; [auto|]. right. eexists. reflexivity. }
  destruct Q as [-> | (fs & ->)]; [exists []; auto|]. exists [(fd, fs)]. split; [reflexivity|]. constructor; auto.
Qed.

Lemma filters_of_app : forall add log fd, Forall (fun e => fst e <> fd) add -> filters_of fd (add ++ log) = filters_of fd log.
Proof.
  intros add log fd F. induction F as [|[d fs] add N F IH]; [reflexivity|]. cbn [app filters_of fst] in *.
  destruct (Z.eqb_spec fd d); [congruence|exact IH].
Qed.

(** ** One attempt *)
Lemma create_x_cases : forall mem t m i name configs n a w, configs_ok configs n ->
  (exists x, create_x mem t m i name configs n a w = Ret (Returned x) /\ createInterface m i name configs n a w = Ret x) \/
  (exists w', create_x mem t m i name configs n a w = Ret (Threw w') /\ 0 < a_socket a /\
     w_trace w' = (w_trace w ++ [Opened (a_socket a)]) ++ [Closed (a_socket a)] /\
     exists add, w_filters w' = add ++ w_filters w /\ Forall (fun e => fst e = a_socket a) add).
Proof.
  intros mem t m i name configs n a w OK. unfold create_x, createInterface.
  destruct (open_cases name (m_canfd m) (m_own m) a (w_trace w)) as [[S E]|[(S & E & N)|(S & E & Y)]]; rewrite E.
  - destruct (Z.leb_spec (a_socket a) 0); [|lia]. left. eexists. split; reflexivity.
  - change (-1 <=? 0) with true. left. eexists. split; reflexivity.
  - destruct (Z.leb_spec (a_socket a) 0) as [L|L]; [left; eexists; split; reflexivity|].
    destruct (configure_x_cases (fun k => mem (P_filter t k)) (a_filter a) (a_socket a) configs n (w_filters w) OK) as [([r log] & -> & C)| ->];
      cbn [bind]; [rewrite C; cbn [bind]|].
    + destruct (result_not r); [left; eexists; split; reflexivity|]. destruct (mem (P_interface t)); [|left; eexists; split; reflexivity].
      right. eexists. split; [reflexivity|]. split; [auto|]. split; [reflexivity|]. cbn [w_filters]. eapply configure_adds; eauto.
    + right. eexists. split; [reflexivity|]. split; [auto|]. split; [reflexivity|]. exists []. auto.
Qed.

(** ** The loop *)
Lemma start_loop_x_returned : forall mem m configs n kernel, configs_ok configs n -> forall fuel i t acc w x,
  start_loop_x mem fuel i t m configs n kernel acc w = Some (Ret (Returned x)) -> start_loop fuel i t m configs n kernel acc w = Some (Ret x).
Proof.
  intros mem m configs n kernel OK. induction fuel as [|k IH]; intros i t acc w x E; [discriminate|]. cbn [start_loop_x start_loop] in *.
  destruct (i <? _); [|congruence]. destruct (nth_error _ _) as [name|]; [|discriminate].
  destruct (create_x_cases mem t m i name configs n (kernel t (w_trace w)) w OK) as [([[r o] w1] & C & ->)|(w' & C & _)]; rewrite C in E.
  - apply IH in E. exact E.
  - discriminate.
Qed.

Lemma start_loop_x_enough : forall mem m configs n kernel, (forall p, mem p = false) -> forall fuel i t acc w,
  start_loop_x mem fuel i t m configs n kernel acc w =
  match start_loop fuel i t m configs n kernel acc w with
  | Some (Ret x) => Some (Ret (Returned x)) | Some UB => Some UB | None => None end.
Proof.
  intros mem m configs n kernel F. induction fuel as [|k IH]; intros i t acc w; [reflexivity|]. cbn [start_loop_x start_loop].
  destruct (i <? _); [|reflexivity]. destruct (nth_error _ _) as [name|]; [|reflexivity].
  assert (C : create_x mem t m i name configs n (kernel t (w_trace w)) w =
              let* x := createInterface m i name configs n (kernel t (w_trace w)) w in Ret (Returned x)).
  { unfold create_x, createInterface. destruct (openSocket _ _ _ _ _) as [fd tr]. destruct (fd <=? 0); [reflexivity|].
    rewrite configure_x_enough by (intros; apply F). destruct (configureFilters _ _ _ _ _) as [[r log]|]; [|reflexivity]. cbn [bind].
    destruct (result_not r); [reflexivity|]. rewrite F. reflexivity. }
  rewrite C. destruct (createInterface _ _ _ _ _ _ _) as [[[r o] w1]|]; cbn [bind]; [|reflexivity]. apply IH.
Qed.

Lemma start_loop_x_defined : forall mem m configs n kernel, configs_ok configs n -> (length (m_required m) <= 255)%nat -> forall todo done fuel acc w,
  m_required m = done ++ todo -> (length todo < fuel)%nat ->
  exists e, start_loop_x mem fuel (Z.of_nat (length done)) (length done) m configs n kernel acc w = Some (Ret e).
Proof.
  intros mem m configs n kernel OK LEN. induction todo as [|name todo IH]; intros done fuel acc w R L.
  - destruct fuel as [|k]; [cbn in L; lia|]. cbn [start_loop_x]. rewrite R, app_nil_r. rewrite Z.ltb_irrefl. eauto.
  - destruct fuel as [|k]; [cbn in L; lia|]. cbn [start_loop_x length] in *. rewrite R, app_length. cbn [length].
    destruct (Z.ltb_spec (Z.of_nat (length done)) (Z.of_nat (length done + S (length todo)))); [|lia].
    rewrite Nat2Z.id, nth_error_app2, Nat.sub_diag by lia. cbn [nth_error].
    destruct (create_x_cases mem (length done) m (Z.of_nat (length done)) name configs n (kernel (length done) (w_trace w)) w OK)
      as [([[r o] w1] & -> & _)|(w' & -> & _)]; [|eauto].
    assert (LD : (length done < 255)%nat) by (rewrite R, app_length in LEN; cbn [length] in LEN; lia).
    rewrite Z.mod_small by lia.
    destruct (IH (done ++ [name]) k (match o with Some s => if negb (result_not r) then acc ++ [s] else acc | None => acc end) w1) as [e E].
    { rewrite <- app_assoc. exact R. }
    { lia. }
    rewrite app_length in E. cbn [length] in E. replace (Z.of_nat (length done) + 1) with (Z.of_nat (length done + 1)) by lia.
    rewrite Nat.add_1_r in E |- *. rewrite E. eauto.
Qed.

(** What is open when the loop was left by an exception. *)
Lemma start_loop_x_live : forall mem m configs num kernel live0, configs_ok configs num -> fresh_descriptors live0 kernel ->
  forall fuel i t acc w live other leaked w',
  replay live0 (w_trace w) = Some live -> NoDup live ->
  Permutation live (other ++ leaked ++ map getSocketDescriptor acc) ->
  start_loop_x mem fuel i t m configs num kernel acc w = Some (Ret (Threw w')) ->
  exists live' zeros, replay live0 (w_trace w') = Some live' /\ NoDup live' /\ Forall (eq 0) zeros /\
    Permutation live' (other ++ zeros ++ leaked).
Proof.
  intros mem m configs num kernel live0 OK FR. induction fuel as [|k IH]; intros i t acc w live other leaked w' R ND P E; [discriminate|].
  cbn [start_loop_x] in E. destruct (_ <? _); [|discriminate].
  destruct (nth_error _ _) as [name|]; [|discriminate].
  set (a := kernel t (w_trace w)) in *.
  assert (NI : 0 <= a_socket a -> ~ In (a_socket a) live) by (apply (FR t (w_trace w)); auto).
  assert (RO : 0 <= a_socket a -> replay live0 (w_trace w ++ [Opened (a_socket a)]) = Some (a_socket a :: live)).
  { intros. rewrite replay_app, R. cbn [replay]. now rewrite existsb_not_In by auto. }
  assert (RC : 0 <= a_socket a -> replay live0 ((w_trace w ++ [Opened (a_socket a)]) ++ [Closed (a_socket a)]) = Some live).
  { intros. rewrite replay_app, RO by auto. cbn [replay existsb]. rewrite Z.eqb_refl. cbn [orb remove].
    destruct (Z.eq_dec _ _); [|congruence]. rewrite notin_remove by auto. reflexivity. }
  destruct (create_x_cases mem t m i name configs num a w OK) as [(x & C & C')|(w1 & C & S & T & _)]; rewrite C in E.
  2:{ injection E as <-. cbn [w_trace].
      assert (R1 : replay live0 (w_trace w1) = Some live) by (rewrite T; apply RC; lia).
      rewrite fold_destroy, replay_app, R1.
      destruct (replay_close (map getSocketDescriptor acc) live (other ++ leaked)) as (l & A & B & D); auto.
      { now rewrite <- app_assoc. }
      exists l, []. auto. }
  destruct x as [[r o] w1]. destruct (create_cases m i name configs num a w OK) as (r' & o' & w1' & C2 & D).
  rewrite C2 in C'. injection C' as -> -> ->.
  destruct D as [(-> & _ & _ & [T|[[Q T]|[Z0 T]]])|(-> & -> & CU & T)].
  - eapply IH in E; eauto. now rewrite T.
  - eapply IH in E; eauto. rewrite T. auto.
  - rewrite Z0 in *. eapply (IH _ _ acc w1 (0 :: live) other (0 :: leaked)) in E.
    + destruct E as (live' & zeros & E1 & E2 & E3 & E4). exists live', (zeros ++ [0]). split; [auto|]. split; [auto|]. split.
      * apply Forall_app; auto.
      * rewrite E4. rewrite <- !app_assoc. reflexivity.
    + rewrite T. apply RO. lia.
    + constructor; auto. apply NI. lia.
    + rewrite P. apply Permutation_cons_app. reflexivity.
  - change (negb (result_not Success)) with true in E. cbn iota in E.
    eapply (IH _ _ (acc ++ [iface_make i name (a_socket a)]) w1 (a_socket a :: live) other leaked) in E; auto.
    + rewrite T. apply RO. destruct CU. lia.
    + constructor; auto. apply NI. destruct CU. lia.
    + rewrite map_app. cbn [map]. change (getSocketDescriptor (iface_make i name (a_socket a))) with (a_socket a).
      rewrite P. rewrite !app_assoc. rewrite Permutation_cons_append. reflexivity.
Qed.

Lemma create_adds : forall m i name configs n a w r o w', createInterface m i name configs n a w = Ret (r, o, w') ->
  exists add, w_filters w' = add ++ w_filters w /\ Forall (fun e => 0 < a_socket a /\ fst e = a_socket a) add.
Proof.
  intros m i name configs n a w r o w' E. unfold createInterface in E.
  assert (NIL : exists add, w_filters w = add ++ w_filters w /\ Forall (fun e : Z * list kfilter => 0 < a_socket a /\ fst e = a_socket a) add).
  { exists []. auto. }
  destruct (open_cases name (m_canfd m) (m_own m) a (w_trace w)) as [[S Q]|[(S & Q & N)|(S & Q & Y)]]; rewrite Q in E.
  - destruct (Z.leb_spec (a_socket a) 0); [|lia]. injection E as <- <- <-. exact NIL.
  - change (-1 <=? 0) with true in E. injection E as <- <- <-. exact NIL.
  - destruct (Z.leb_spec (a_socket a) 0) as [L|L]; [injection E as <- <- <-; exact NIL|].
    apply bind_ret_inv in E. destruct E as ([r1 log] & C & E). apply configure_adds in C. destruct C as (add & -> & F).
    assert (F' : Forall (fun e : Z * list kfilter => 0 < a_socket a /\ fst e = a_socket a) add).
    { eapply Forall_impl; [|exact F]. cbn. auto. }
    destruct (result_not r1); injection E as <- <- <-; exists add; auto.
Qed.

Definition loop_world (e : ended (list iface * world) world) : world := match e with Returned (_, w) => w | Threw w => w end.

(** Descriptors that stay open throughout keep their filters. *)
Lemma start_loop_x_filters : forall mem m configs num kernel live0, configs_ok configs num -> fresh_descriptors live0 kernel ->
  forall fuel i t acc w live d e,
  replay live0 (w_trace w) = Some live -> NoDup live -> In d live ->
  start_loop_x mem fuel i t m configs num kernel acc w = Some (Ret e) ->
  filters_of d (w_filters (loop_world e)) = filters_of d (w_filters w).
Proof.
  intros mem m configs num kernel live0 OK FR. induction fuel as [|k IH]; intros i t acc w live d e R ND I E; [discriminate|].
  cbn [start_loop_x] in E. destruct (_ <? _); [|injection E as <-; reflexivity].
  destruct (nth_error _ _) as [name|]; [|discriminate].
  set (a := kernel t (w_trace w)) in *.
  assert (NI : 0 <= a_socket a -> ~ In (a_socket a) live) by (apply (FR t (w_trace w)); auto).
  assert (RO : 0 <= a_socket a -> replay live0 (w_trace w ++ [Opened (a_socket a)]) = Some (a_socket a :: live)).
  { intros. rewrite replay_app, R. cbn [replay]. now rewrite existsb_not_In by auto. }
  assert (RC : 0 <= a_socket a -> replay live0 ((w_trace w ++ [Opened (a_socket a)]) ++ [Closed (a_socket a)]) = Some live).
  { intros. rewrite replay_app, RO by auto. cbn [replay existsb]. rewrite Z.eqb_refl. cbn [orb remove].
    destruct (Z.eq_dec _ _); [|congruence]. rewrite notin_remove by auto. reflexivity. }
  destruct (create_x_cases mem t m i name configs num a w OK) as [(x & C & C')|(w1 & C & S & T & add & W & A)]; rewrite C in E.
  2:{ injection E as <-. cbn [loop_world w_filters]. rewrite W. apply filters_of_app. eapply Forall_impl; [|exact A].
      cbn. intros [d' fs] Q. cbn in Q |- *. intros ->. apply NI; [lia|congruence]. }
  destruct x as [[r o] w1]. pose proof (create_adds _ _ _ _ _ _ _ _ _ _ C') as (add & W & A).
  assert (F1 : filters_of d (w_filters w1) = filters_of d (w_filters w)).
  { rewrite W. apply filters_of_app. eapply Forall_impl; [|exact A]. cbn. intros [d' fs] [Q1 Q2]. cbn in Q2 |- *. intros ->.
    apply NI; [lia|congruence]. }
  destruct (create_cases m i name configs num a w OK) as (r' & o' & w1' & C2 & D).
  rewrite C2 in C'. injection C' as -> -> ->. rewrite <- F1.
  destruct D as [(-> & _ & _ & [T|[[Q T]|[Z0 T]]])|(-> & -> & CU & T)].
  - eapply IH; [| | |exact E]; eauto. now rewrite T.
  - eapply IH; [| | |exact E]; eauto. rewrite T. auto.
  - eapply IH; [| | |exact E]; [rewrite T, <- Z0; apply RO; lia|constructor; auto; apply NI; lia|right; auto].
  - eapply IH; [| | |exact E]; [rewrite T; apply RO; destruct CU; lia|constructor; auto; apply NI; destruct CU; lia|right; auto].
Qed.

(** ** startInterfaceGroup *)
Lemma start_x_returned : forall mem fuel m configs n kernel out w x, configs_ok configs n ->
  start_x mem fuel m configs n kernel out w = Some (Ret (Returned x)) -> startInterfaceGroup fuel m configs n kernel out w = Some (Ret x).
Proof.
  intros mem fuel m configs n kernel out w x OK E. unfold start_x, startInterfaceGroup in *. destruct (mem P_reserve); [discriminate|].
  destruct (start_loop_x _ _ _ _ _ _ _ _ _ _) as [[[[g w']|w']|]|] eqn:L; try discriminate.
  apply start_loop_x_returned in L; auto. rewrite L. destruct g as [|s g]; [congruence|].
  destruct (_ || _); [discriminate|]. injection E as <-. reflexivity.
Qed.

Lemma start_x_enough : forall mem fuel m configs n kernel out w, (forall p, mem p = false) ->
  start_x mem fuel m configs n kernel out w =
  match startInterfaceGroup fuel m configs n kernel out w with
  | Some (Ret x) => Some (Ret (Returned x)) | Some UB => Some UB | None => None end.
Proof.
  intros mem fuel m configs n kernel out w F. unfold start_x, startInterfaceGroup. rewrite !F.
  rewrite start_loop_x_enough by auto. destruct (start_loop _ _ _ _ _ _ _ _ _) as [[[[|s g] w']|]|]; reflexivity.
Qed.

Lemma start_x_defined : forall mem fuel m configs n kernel out w, configs_ok configs n -> (length (m_required m) <= 255)%nat ->
  (length (m_required m) < fuel)%nat -> exists e, start_x mem fuel m configs n kernel out w = Some (Ret e).
Proof.
  intros mem fuel m configs n kernel out w OK LEN F. unfold start_x. destruct (mem P_reserve); [eauto|].
  destruct (start_loop_x_defined mem m configs n kernel OK LEN (m_required m) [] fuel [] w eq_refl F) as [e E].
  cbn [length] in E. change (Z.of_nat 0) with 0 in E. rewrite E. destruct e as [[[|s g] w']|w']; eauto.
  destruct (_ || _); eauto.
Qed.

Lemma start_x_threw : forall mem fuel m configs n kernel out w live0 live p w', configs_ok configs n -> fresh_descriptors live0 kernel ->
  replay live0 (w_trace w) = Some live -> NoDup live ->
  start_x mem fuel m configs n kernel out w = Some (Ret (Threw (p, w'))) ->
  p = out /\
  (exists live' zeros, replay live0 (w_trace w') = Some live' /\ NoDup live' /\ Forall (eq 0) zeros /\ Permutation live' (live ++ zeros)) /\
  (forall d, In d live -> filters_of d (w_filters w') = filters_of d (w_filters w)).
Proof.
  intros mem fuel m configs n kernel out w live0 live p w' OK FR R ND E. unfold start_x in E.
  destruct (mem P_reserve).
  { injection E as <- <-. split; [auto|]. split; [|auto]. exists live, []. rewrite app_nil_r. auto. }
  assert (P0 : Permutation live (live ++ [] ++ map getSocketDescriptor [])) by (cbn [app map]; now rewrite app_nil_r).
  destruct (start_loop_x _ _ _ _ _ _ _ _ _ _) as [[[[g w1]|w1]|]|] eqn:L; try discriminate.
  - pose proof L as L'. apply start_loop_x_returned in L; [|auto]. destruct g as [|s g]; [discriminate|].
    destruct (_ || _); [|discriminate]. injection E as <- <-. split; [auto|]. split.
    + destruct (start_loop_live m configs n kernel live0 OK FR _ _ _ _ _ live live [] _ _ R ND P0 L) as (l1 & zeros & E1 & E2 & E3 & E4).
      rewrite app_nil_r in E4. cbn [w_trace]. rewrite fold_destroy, replay_app, E1.
      destruct (replay_close (map getSocketDescriptor (s :: g)) l1 (live ++ zeros)) as (l & A & B & D); auto.
      { rewrite E4. now rewrite <- !app_assoc. }
      exists l, zeros. auto.
    + intros d I. cbn [w_filters]. exact (start_loop_x_filters mem m configs n kernel live0 OK FR _ _ _ _ _ live d _ R ND I L').
  - injection E as <- <-. split; [auto|]. split.
    + destruct (start_loop_x_live mem m configs n kernel live0 OK FR _ _ _ _ _ live live [] _ R ND P0 L) as (l1 & zeros & E1 & E2 & E3 & E4).
      exists l1, zeros. rewrite app_nil_r in E4. auto.
    + intros d I. exact (start_loop_x_filters mem m configs n kernel live0 OK FR _ _ _ _ _ live d _ R ND I L).
Qed.

(** A start that returns leaves the filters of what was open. *)
Lemma start_filters_kept : forall fuel m configs n kernel out w live0 live r p w' d, configs_ok configs n -> fresh_descriptors live0 kernel ->
  replay live0 (w_trace w) = Some live -> NoDup live -> In d live ->
  startInterfaceGroup fuel m configs n kernel out w = Some (Ret (r, p, w')) -> filters_of d (w_filters w') = filters_of d (w_filters w).
Proof.
  intros fuel m configs n kernel out w live0 live r p w' d OK FR R ND I E. unfold startInterfaceGroup in E.
  destruct (start_loop _ _ _ _ _ _ _ _ _) as [[[g w1]|]|] eqn:L; try discriminate.
  pose proof (start_loop_x_enough (fun _ => false) m configs n kernel (fun _ => eq_refl) fuel 0 0%nat [] w) as L'. rewrite L in L'.
  pose proof (start_loop_x_filters _ m configs n kernel live0 OK FR _ _ _ _ _ live d _ R ND I L') as Q. cbn [loop_world] in Q.
  destruct g; injection E as <- <- <-; exact Q.
Qed.

(** ** reconfigureFilters *)
Lemma reconfigure_x_returned : forall fails ans configs n, configs_ok configs n -> forall fuel i t g log x,
  reconfigure_loop_x fails fuel i t g ans configs n log = Some (Ret (Returned x)) -> reconfigure_loop fuel i t g ans configs n log = Some (Ret x).
Proof.
  intros fails ans configs n OK. induction fuel as [|k IH]; intros i t g log x E; [discriminate|].
  cbn [reconfigure_loop_x reconfigure_loop] in *. destruct (i <? _); [|congruence].
  destruct (nth_error _ _) as [s|]; [|discriminate].
  destruct (configure_x_cases (fails t) (ans t) (getSocketDescriptor s) configs n log OK) as [([r log'] & C & ->)|C]; rewrite C in E; [|discriminate].
  destruct (result_not r); [congruence|]. apply IH. exact E.
Qed.

Lemma reconfigure_x_enough : forall fails ans configs n, (forall t k, fails t k = false) -> forall fuel i t g log,
  reconfigure_loop_x fails fuel i t g ans configs n log =
  match reconfigure_loop fuel i t g ans configs n log with
  | Some (Ret x) => Some (Ret (Returned x)) | Some UB => Some UB | None => None end.
Proof.
  intros fails ans configs n F. induction fuel as [|k IH]; intros i t g log; [reflexivity|]. cbn [reconfigure_loop_x reconfigure_loop].
  destruct (i <? _); [|reflexivity]. destruct (nth_error _ _) as [s|]; [|reflexivity].
  rewrite configure_x_enough by auto. destruct (configureFilters _ _ _ _ _) as [[r log']|]; [|reflexivity]. cbn [bind].
  destruct (result_not r); [reflexivity|]. apply IH.
Qed.

Lemma configure_success : forall ans fd configs n lg r lg', configureFilters ans fd configs n lg = Ret (r, lg') -> result_not r = false ->
  r = Success /\ exists fs, forall l, configureFilters ans fd configs n l = Ret (Success, (fd, fs) :: l).
Proof.
  intros ans fd configs n lg r lg' E N. unfold configureFilters in *.
  destruct (_ && _ && _); [injection E as <- <-; discriminate|]. destruct (n =? 0)%nat.
  - destruct (negb (ans _ _ =? _)); injection E as <- <-; [discriminate|]. split; [auto|]. eexists. reflexivity.
  - destruct configs; [|discriminate]. destruct (convert_filters _ _); [|discriminate]. cbn [bind] in *.
    destruct (negb (ans _ _ =? _)); injection E as <- <-; [discriminate|]. split; [auto|]. eexists. reflexivity.
Qed.

(** Interfaces that accepted get their filters, in order. *)
Lemma reconfigure_x_threw : forall fails ans configs n, configs_ok configs n -> forall todo done fuel log log',
  NoDup (map getSocketDescriptor (done ++ todo)) -> (length (done ++ todo) <= 255)%nat ->
  reconfigure_loop_x fails fuel (Z.of_nat (length done)) (length done) (done ++ todo) ans configs n log = Some (Ret (Threw log')) ->
  exists k, (k < length todo)%nat /\
    (forall t s, nth_error todo t = Some s -> (t < k)%nat -> forall lg, exists lg',
       configureFilters (ans (length done + t)%nat) (getSocketDescriptor s) configs n lg = Ret (Success, lg') /\
       filters_of (getSocketDescriptor s) log' = filters_of (getSocketDescriptor s) lg') /\
    (forall fd, (forall t s, nth_error todo t = Some s -> (t < k)%nat -> getSocketDescriptor s <> fd) -> filters_of fd log' = filters_of fd log).
Proof.
  intros fails ans configs n OK. induction todo as [|s todo IH]; intros done fuel log log' ND LEN E.
  - exfalso. destruct fuel as [|fl]; [discriminate|]. cbn [reconfigure_loop_x] in E. rewrite app_nil_r, Z.ltb_irrefl in E. discriminate.
  - destruct fuel as [|fl]; [discriminate|]. cbn [reconfigure_loop_x] in E. rewrite app_length in E, LEN. cbn [length] in E, LEN.
    destruct (Z.ltb_spec (Z.of_nat (length done)) (Z.of_nat (length done + S (length todo)))); [|lia].
    rewrite Nat2Z.id, nth_error_app2, Nat.sub_diag in E by lia. cbn [nth_error] in E.
    destruct (configure_x_cases (fails (length done)) (ans (length done)) (getSocketDescriptor s) configs n log OK) as [([r log1] & C & CF)|C];
      rewrite C in E.
    + destruct (result_not r) eqn:N; [discriminate|]. rewrite Z.mod_small in E by lia.
      replace (done ++ s :: todo) with ((done ++ [s]) ++ todo) in E, ND by (now rewrite <- app_assoc).
      replace (Z.of_nat (length done) + 1) with (Z.of_nat (length (done ++ [s]))) in E by (rewrite app_length; cbn; lia).
      replace (S (length done)) with (length (done ++ [s])) in E by (rewrite app_length; cbn; lia).
      apply IH in E; auto. 2:{ rewrite !app_length. cbn [length]. lia. }
      destruct E as (k & K & A & B). exists (S k). split; [cbn; lia|].
      destruct (configure_success _ _ _ _ _ _ _ CF N) as (-> & fs & F1).
      assert (NS : ~ In (getSocketDescriptor s) (map getSocketDescriptor todo)).
      { rewrite <- app_assoc, map_app in ND. apply NoDup_remove_2 in ND. intros Q. apply ND. apply in_or_app. right. exact Q. }
      split.
      * intros t s' Q L lg. destruct t as [|t].
        { cbn [nth_error] in Q. injection Q as <-. rewrite Nat.add_0_r. rewrite F1 in CF. injection CF as <-.
          rewrite F1. eexists. split; [reflexivity|]. rewrite B.
          - cbn [filters_of]. now rewrite Z.eqb_refl.
          - intros t s' Q L' E'. apply NS. rewrite <- E'. apply in_map. eapply nth_error_In; eauto. }
        { cbn [nth_error] in Q. destruct (A t s' Q ltac:(lia) lg) as (lg' & A1 & A2). exists lg'. split; [|auto].
          rewrite app_length in A1. cbn [length] in A1. replace (length done + S t)%nat with (length done + 1 + t)%nat by lia. exact A1. }
      * intros fd Q. rewrite B. 2:{ intros t s' G L. apply (Q (S t) s' G). lia. }
        pose proof (Q 0%nat s eq_refl ltac:(lia)) as D.
        destruct (configure_adds _ _ _ _ _ _ _ CF) as (add & -> & FA). apply filters_of_app. eapply Forall_impl; [|exact FA]. cbn. intros e ->. exact D.
    + injection E as <-. exists 0%nat. split; [cbn; lia|]. split; [intros; lia|auto].
Qed.

(** ** Where new answers null *)
Lemma create_n_cases : forall null t m i name configs n kernel tr wn ws, configs_ok configs n -> w_trace wn = tr -> w_trace ws = tr ->
  exists o rn rs wn' ws', create_n null t m i name configs n (kernel t tr) wn = Ret (rn, o, wn') /\
    createInterface m i name configs n (refusing null kernel t tr) ws = Ret (rs, o, ws') /\
    (o <> None -> result_not rn = false /\ result_not rs = false) /\
    w_trace wn' = w_trace ws' /\
    exists addn adds, w_filters wn' = addn ++ w_filters wn /\ w_filters ws' = adds ++ w_filters ws /\
      Forall (fun e => 0 < a_socket (kernel t tr) /\ fst e = a_socket (kernel t tr)) addn /\ (addn = adds \/ adds = [] /\ o = None).
Proof.
  intros null t m i name configs n kernel tr wn ws OK Tn Ts. unfold create_n, createInterface, refusing. rewrite Tn, Ts.
  set (a := kernel t tr).
  assert (OP : openSocket name (m_canfd m) (m_own m)
     (if null (P_interface t) then Answers (a_socket a) (a_canfd a) (a_own a) (a_ioctl a) (a_ifindex a) (a_bind a) (a_error a) (fun _ _ => -1) else a) tr
     = openSocket name (m_canfd m) (m_own m) a tr) by (destruct (null (P_interface t)); reflexivity).
  rewrite OP. clear OP.
  assert (FD : forall fd tr', openSocket name (m_canfd m) (m_own m) a tr = (fd, tr') -> 0 < fd -> fd = a_socket a).
  { intros fd tr' E L. destruct (open_cases name (m_canfd m) (m_own m) a tr) as [[S Q]|[(S & Q & N)|(S & Q & Y)]]; rewrite Q in E; injection E as <- <-; lia. }
  destruct (openSocket _ _ _ _ _) as [fd tr'] eqn:Q. destruct (Z.leb_spec fd 0).
  { exists None. do 4 eexists. split; [reflexivity|]. split; [reflexivity|]. split; [congruence|]. split; [reflexivity|].
    exists [], []. split; [reflexivity|]. split; [reflexivity|]. split; [constructor|]. auto. }
  assert (fd = a_socket a) by eauto. subst fd.
  destruct (configure_form (a_filter a) (a_socket a) configs n OK) as (r & add & R & F).
  assert (A : Forall (fun e : Z * list kfilter => 0 < a_socket a /\ fst e = a_socket a) add).
  { pose proof (F []) as F0. rewrite app_nil_r in F0. apply configure_adds in F0. destruct F0 as (add' & E & A).
    rewrite app_nil_r in E. subst add'. eapply Forall_impl; [|exact A]. cbn. auto. }
  rewrite F. cbn [bind]. destruct (null (P_interface t)) eqn:NL; cbn [a_filter a_socket].
  - destruct (configure_form (fun _ _ => -1) (a_socket a) configs n OK) as (r' & add' & R' & F'). rewrite F'. cbn [bind].
    assert (Q' : result_not r' = true /\ add' = []).
    { clear - F'. specialize (F' []). rewrite app_nil_r in F'. unfold configureFilters in F'. change (negb (-1 =? 0)) with true in F'.
      destruct (_ && _ && _); [injection F' as <- <-; auto|]. destruct (n =? 0)%nat; [injection F' as <- <-; auto|].
      destruct configs; [|discriminate]. destruct (convert_filters _ _); [|discriminate]. cbn [bind] in F'. injection F' as <- <-. auto. }
    destruct Q' as [-> ->]. exists None. destruct (result_not r).
    + do 4 eexists. split; [reflexivity|]. split; [reflexivity|]. split; [congruence|]. split; [reflexivity|]. exists add, []. split; [reflexivity|]. split; [reflexivity|]. split; [exact A|]. auto.
    + do 4 eexists. split; [reflexivity|]. split; [reflexivity|]. split; [congruence|]. split; [reflexivity|]. exists add, []. split; [reflexivity|]. split; [reflexivity|]. split; [exact A|]. auto.
  - rewrite F. cbn [bind]. destruct (result_not r).
    + exists None. do 4 eexists. split; [reflexivity|]. split; [reflexivity|]. split; [congruence|]. split; [reflexivity|]. exists add, add. split; [reflexivity|]. split; [reflexivity|]. split; [exact A|]. auto.
    + eexists. do 4 eexists. split; [reflexivity|]. split; [reflexivity|]. split; [auto|]. split; [reflexivity|]. exists add, add. split; [reflexivity|]. split; [reflexivity|]. split; [exact A|]. auto.
Qed.

Lemma refusing_fresh : forall null live kernel, fresh_descriptors live kernel -> fresh_descriptors live (refusing null kernel).
Proof.
  intros null live kernel FR t tr now R. unfold refusing. destruct (null _); cbn [a_socket]; eapply FR; eauto.
Qed.

Lemma filters_of_app_cong : forall add l1 l2 d, filters_of d l1 = filters_of d l2 -> filters_of d (add ++ l1) = filters_of d (add ++ l2).
Proof. intros add l1 l2 d E. induction add as [|[d' fs] add IH]; [exact E|]. cbn [app filters_of]. destruct (d =? d'); auto. Qed.

(** The loop with null is the loop whose kernel refuses. *)
Lemma start_loop_n_eq : forall null m configs n kernel, configs_ok configs n -> forall fuel i t acc wn ws,
  w_trace wn = w_trace ws ->
  (start_loop_n null fuel i t m configs n kernel acc wn = None /\ start_loop fuel i t m configs n (refusing null kernel) acc ws = None) \/
  (start_loop_n null fuel i t m configs n kernel acc wn = Some UB /\ start_loop fuel i t m configs n (refusing null kernel) acc ws = Some UB) \/
  exists g wn' ws', start_loop_n null fuel i t m configs n kernel acc wn = Some (Ret (g, wn')) /\
    start_loop fuel i t m configs n (refusing null kernel) acc ws = Some (Ret (g, ws')) /\ w_trace wn' = w_trace ws'.
Proof.
  intros null m configs n kernel OK. induction fuel as [|k IH]; intros i t acc wn ws T; [left; auto|].
  cbn [start_loop_n start_loop]. destruct (i <? _); [|right; right; eauto 10].
  destruct (nth_error _ _) as [name|]; [|right; left; auto].
  destruct (create_n_cases null t m i name configs n kernel (w_trace wn) wn ws OK eq_refl (eq_sym T)) as (o & rn & rs & wn' & ws' & C1 & C2 & RR & T' & _).
  rewrite <- T. rewrite C1, C2. destruct o as [s|].
  - destruct (RR ltac:(discriminate)) as [-> ->]. apply IH. exact T'.
  - apply IH. exact T'.
Qed.

Lemma start_n_cases : forall null fuel m configs n kernel out w, configs_ok configs n ->
  match startInterfaceGroup fuel m configs n (refusing null kernel) out w with
  | None => start_n null fuel m configs n kernel out w = None
  | Some UB => start_n null fuel m configs n kernel out w = Some UB
  | Some (Ret (r, p, ws)) =>
      if isSuccess r && null P_group then start_n null fuel m configs n kernel out w = Some UB
      else exists log, start_n null fuel m configs n kernel out w = Some (Ret (r, p, World (w_trace ws) log))
  end.
Proof.
  intros null fuel m configs n kernel out w OK. unfold startInterfaceGroup, start_n.
  destruct (start_loop_n_eq null m configs n kernel OK fuel 0 0%nat [] w w eq_refl) as [[-> ->]|[[-> ->]|(g & wn & ws & -> & -> & T)]]; auto.
  destruct g as [|s g].
  - change (isSuccess NotFound && null P_group) with false. cbn iota. exists (w_filters wn). rewrite <- T. destruct wn; reflexivity.
  - set (r := if _ <=? _ then Success else SuccessPartial). assert (isSuccess r = true) as -> by (unfold r; destruct (_ <=? _); reflexivity).
    cbn [andb]. destruct (null P_group); [reflexivity|]. exists (w_filters wn). cbn [w_trace]. rewrite T. reflexivity.
Qed.

(** Both leave the same filters on the sockets that are open afterwards. *)
Lemma start_loop_n_filters : forall null m configs num kernel live0, configs_ok configs num -> fresh_descriptors live0 kernel ->
  forall fuel i t acc wn ws live g wn' ws',
  replay live0 (w_trace wn) = Some live -> NoDup live -> w_trace wn = w_trace ws ->
  (forall d, In d live \/ d = 0 -> filters_of d (w_filters wn) = filters_of d (w_filters ws)) ->
  start_loop_n null fuel i t m configs num kernel acc wn = Some (Ret (g, wn')) ->
  start_loop fuel i t m configs num (refusing null kernel) acc ws = Some (Ret (g, ws')) ->
  exists live', replay live0 (w_trace wn') = Some live' /\
    forall d, In d live' \/ d = 0 -> filters_of d (w_filters wn') = filters_of d (w_filters ws').
Proof.
  intros null m configs num kernel live0 OK FR. induction fuel as [|k IH]; intros i t acc wn ws live g wn' ws' R ND T EQ E E'; [discriminate|].
  cbn [start_loop_n start_loop] in E, E'. destruct (_ <? _); [|injection E as <- <-; injection E' as <-; eauto].
  destruct (nth_error _ _) as [name|]; [|discriminate]. rewrite <- T in E'.
  destruct (create_n_cases null t m i name configs num kernel (w_trace wn) wn ws OK eq_refl (eq_sym T))
    as (o & rn & rs & wn1 & ws1 & C1 & C2 & RR & T1 & addn & adds & A1 & A2 & FA & AD).
  rewrite C1 in E. rewrite C2 in E'.
  set (a := kernel t (w_trace wn)) in *.
  assert (AS : a_socket (refusing null kernel t (w_trace wn)) = a_socket a) by (unfold refusing; destruct (null _); reflexivity).
  assert (NI : 0 <= a_socket a -> ~ In (a_socket a) live) by (apply (FR t (w_trace wn)); auto).
  assert (RO : 0 <= a_socket a -> replay live0 (w_trace wn ++ [Opened (a_socket a)]) = Some (a_socket a :: live)).
  { intros. rewrite replay_app, R. cbn [replay]. now rewrite existsb_not_In by auto. }
  assert (RC : 0 <= a_socket a -> replay live0 ((w_trace wn ++ [Opened (a_socket a)]) ++ [Closed (a_socket a)]) = Some live).
  { intros. rewrite replay_app, RO by auto. cbn [replay existsb]. rewrite Z.eqb_refl. cbn [orb remove].
    destruct (Z.eq_dec _ _); [|congruence]. rewrite notin_remove by auto. reflexivity. }
  assert (EQ1 : forall d, In d live \/ d = 0 -> filters_of d (w_filters wn1) = filters_of d (w_filters ws1)).
  { intros d D. rewrite A1, A2. destruct AD as [-> | [-> _]]; [apply filters_of_app_cong; auto|]. cbn [app].
    rewrite filters_of_app; [auto|]. eapply Forall_impl; [|exact FA]. cbn. intros e [P Q] X. rewrite Q in X. destruct D as [D|D]; [|lia].
    apply NI; [lia|]. congruence. }
  destruct (create_cases m i name configs num (refusing null kernel t (w_trace wn)) ws OK) as (r' & o' & w1' & C3 & D).
  rewrite C2 in C3. injection C3 as <- <- <-. rewrite AS, <- T, <- T1 in D.
  destruct D as [(-> & _ & _ & [T2|[[Q T2]|[Z0 T2]]])|(-> & OO & CU & T2)].
  - eapply IH; [| | | |exact E|exact E']; eauto. now rewrite T2.
  - eapply IH; [| | | |exact E|exact E']; eauto. rewrite T2. auto.
  - eapply (IH _ _ _ _ _ (0 :: live)); [| |exact T1| |exact E|exact E'].
    + rewrite T2, <- Z0. apply RO. lia.
    + constructor; auto. rewrite <- Z0. apply NI. lia.
    + intros d [[D|D]|D]; apply EQ1; auto.
  - clear OO. destruct (RR ltac:(discriminate)) as [Q1 Q2]. rewrite Q1 in E. rewrite Q2 in E'.
    destruct CU as [CU1 CU2]. rewrite AS in CU1.
    eapply (IH _ _ _ _ _ (a_socket a :: live)); [| |exact T1| |exact E|exact E'].
    + rewrite T2. apply RO. lia.
    + constructor; auto. apply NI. lia.
    + intros d [[D|D]|D]; [|apply EQ1; auto..]. subst d.
      destruct AD as [AD|[AD AN]]; [|discriminate]. subst adds.
      destruct CU2 as (_ & _ & _ & _ & _ & _ & _ & lg & CF).
      rewrite A1, A2. destruct addn as [|[d fs] addn].
      * exfalso. assert (AA : w_filters ws1 = w_filters ws) by exact A2. revert C2 AA. unfold createInterface. clear - CF.
        destruct (openSocket _ _ _ _ _) as [fd tr]. destruct (fd <=? 0); [discriminate|].
        intros C2 AA. apply bind_ret_inv in C2. destruct C2 as ([r1 l1] & B1 & B2).
        destruct (result_not r1) eqn:RN; [discriminate|]. destruct (configure_success _ _ _ _ _ _ _ B1 RN) as (-> & fs & B3).
        rewrite B3 in B1. injection B1 as <-. assert (ws1 = World tr ((fd, fs) :: w_filters ws)) as -> by congruence. cbn [w_filters] in AA.
        apply (f_equal (@length _)) in AA. cbn in AA. lia.
      * inversion FA as [|? ? [_ H1] _]. cbn in H1. subst d. cbn [app filters_of]. rewrite Z.eqb_refl. reflexivity.
Qed.

Lemma replay_closed_incl : forall l live live', replay live (map Closed l) = Some live' -> forall d, In d live' -> In d live.
Proof.
  induction l as [|x l IH]; intros live live' E d I; cbn [map replay] in E; [congruence|].
  destruct (existsb _ _); [|discriminate]. eapply IH in E; eauto. apply in_remove in E. tauto.
Qed.

Lemma start_n_filters : forall null fuel m configs n kernel out w live0 live r p wn r' p' ws live', configs_ok configs n -> fresh_descriptors live0 kernel ->
  replay live0 (w_trace w) = Some live -> NoDup live ->
  start_n null fuel m configs n kernel out w = Some (Ret (r, p, wn)) ->
  startInterfaceGroup fuel m configs n (refusing null kernel) out w = Some (Ret (r', p', ws)) ->
  replay live0 (w_trace wn) = Some live' -> forall d, In d live' -> filters_of d (w_filters wn) = filters_of d (w_filters ws).
Proof.
  intros null fuel m configs n kernel out w live0 live r p wn r' p' ws live' OK FR R ND E E' R' d I. unfold start_n, startInterfaceGroup in *.
  destruct (start_loop_n_eq null m configs n kernel OK fuel 0 0%nat [] w w eq_refl) as [[L1 L2]|[[L1 L2]|(g & w1 & w2 & L1 & L2 & T)]];
    rewrite L1 in E; rewrite L2 in E'; try discriminate.
  destruct (start_loop_n_filters null m configs n kernel live0 OK FR _ _ _ _ _ _ live _ _ _ R ND eq_refl (fun _ _ => eq_refl) L1 L2) as (now & RN & Q).
  destruct g as [|s g].
  - assert (wn = w1) as -> by congruence. assert (ws = w2) as -> by congruence. apply Q. left. congruence.
  - destruct (null P_group); [discriminate|].
    assert (wn = World (destroy_ptr out (w_trace w1)) (w_filters w1)) as -> by congruence.
    assert (ws = World (destroy_ptr out (w_trace w2)) (w_filters w2)) as -> by congruence. cbn [w_filters w_trace] in *. apply Q. left.
    destruct out as [g0|]; cbn [destroy_ptr] in R'; [|congruence]. rewrite fold_destroy, replay_app, RN in R'. eapply replay_closed_incl; eauto.
Qed.

(** ** A call that returns had the memory it needed *)
Lemma convert_x_had : forall fails n cs k fs, convert_x fails k n cs = Ret (Some fs) -> forall j, (k <= j < k + n)%nat -> fails j = false.
Proof.
  intros fails. induction n as [|n IH]; intros cs k fs E j J; [lia|]. destruct cs as [|c cs]; [discriminate|]. cbn [convert_x] in E.
  destruct (fails k) eqn:F; [discriminate|]. destruct (convert_x fails (S k) n cs) as [[fs'|]|] eqn:Q; cbn in E; try discriminate.
  destruct (Nat.eq_dec j k) as [->|N]; [auto|]. eapply IH; [exact Q|lia].
Qed.

Lemma create_x_had : forall mem t m i name configs n a w r s w', create_x mem t m i name configs n a w = Ret (Returned (r, Some s, w')) ->
  s = iface_make i name (a_socket a) /\ mem (P_interface t) = false /\ forall k, (k < n)%nat -> mem (P_filter t k) = false.
Proof.
  intros mem t m i name configs n a w r s w' E. unfold create_x in E.
  destruct (open_cases name (m_canfd m) (m_own m) a (w_trace w)) as [[S Q]|[(S & Q & N)|(S & Q & Y)]]; rewrite Q in E.
  - destruct (Z.leb_spec (a_socket a) 0); [discriminate|lia].
  - change (-1 <=? 0) with true in E. discriminate.
  - destruct (a_socket a <=? 0); [discriminate|]. apply bind_ret_inv in E. destruct E as (e & C & E).
    destruct e as [[r1 log]|log]; [|discriminate]. destruct (result_not r1) eqn:RN; [discriminate|].
    destruct (mem (P_interface t)) eqn:M; [discriminate|]. assert (s = iface_make i name (a_socket a)) as -> by congruence. split; [auto|]. split; [auto|].
    intros k K. unfold configure_x in C. destruct (_ && _ && _); [assert (r1 = BadArgument) as -> by congruence; discriminate|].
    destruct (Nat.eqb_spec n 0); [lia|]. destruct configs as [cs|]; [|discriminate].
    destruct (convert_x _ _ _ _) as [[fs|]|] eqn:CV; cbn [bind] in C; [|discriminate..].
    apply (convert_x_had _ _ _ _ _ CV k). lia.
Qed.

Definition had (mem : place -> bool) (n : nat) (s : iface) : Prop :=
  mem (P_interface (Z.to_nat (if_index s))) = false /\ forall k, (k < n)%nat -> mem (P_filter (Z.to_nat (if_index s)) k) = false.
Lemma start_loop_x_had : forall mem m configs n kernel, (length (m_required m) <= 255)%nat -> forall fuel t acc w g w',
  (t <= length (m_required m))%nat -> Forall (had mem n) acc ->
  start_loop_x mem fuel (Z.of_nat t) t m configs n kernel acc w = Some (Ret (Returned (g, w'))) -> Forall (had mem n) g.
Proof.
  intros mem m configs n kernel LEN. induction fuel as [|k IH]; intros t acc w g w' LT A E; [discriminate|]. cbn [start_loop_x] in E.
  destruct (Z.ltb_spec (Z.of_nat t) (Z.of_nat (length (m_required m)))) as [L|L]; [|injection E as <- <-; exact A].
  destruct (nth_error _ _) as [name|]; [|discriminate].
  destruct (create_x _ _ _ _ _ _ _ _ _) as [[[[r o] w1]|w1]|] eqn:C; try discriminate.
  rewrite Z.mod_small in E by lia. replace (Z.of_nat t + 1) with (Z.of_nat (S t)) in E by lia.
  apply IH in E; [exact E|lia|]. destruct o as [s|]; [|exact A]. destruct (negb (result_not r)); [|exact A].
  apply Forall_app. split; [exact A|]. constructor; [|constructor]. apply create_x_had in C. destruct C as (-> & C1 & C2).
  unfold had. unfold iface_make at 1 2. cbn [if_index]. rewrite Nat2Z.id. auto.
Qed.

Lemma start_x_had : forall mem fuel m configs n kernel out w r p w', (length (m_required m) <= 255)%nat ->
  start_x mem fuel m configs n kernel out w = Some (Ret (Returned (r, p, w'))) ->
  mem P_reserve = false /\
  (isSuccess r = true -> mem P_group = false /\ mem P_control = false /\ exists g, p = Some g /\ Forall (had mem n) g).
Proof.
  intros mem fuel m configs n kernel out w r p w' LEN E. unfold start_x in E. destruct (mem P_reserve); [discriminate|]. split; [auto|].
  destruct (start_loop_x _ _ _ _ _ _ _ _ _ _) as [[[[g w1]|w1]|]|] eqn:L; try discriminate.
  apply (start_loop_x_had mem m configs n kernel LEN fuel 0) in L; [|lia|constructor]. destruct g as [|s g].
  - assert (r = NotFound) as -> by congruence. discriminate.
  - intros _. destruct (mem P_group), (mem P_control); try discriminate. split; [auto|]. split; [auto|]. exists (s :: g). cbn [orb] in E. injection E as _ <- _. auto.
Qed.
