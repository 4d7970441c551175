(** A thread alone does what OwnerModel.v says (C152). *)
From Coq Require Import ZArith Bool String List Lia Permutation.
From Verif Require Import Outcome ResultModel CInt CanFrameModel CanFrameProofs SocketCanModel GroupModel GroupProofs ManagerModel ManagerSpec
  ManagerProofs OomModel OomProofs OwnerModel LifeModel LifeSpec LifeProofs.
Import ListNotations.
Open Scope Z_scope.

(** ** Where a trace begins does not matter *)
Lemma open_shift : forall name c o a T tr,
  openSocket name c o a (T ++ tr) = (fst (openSocket name c o a tr), T ++ snd (openSocket name c o a tr)).
Proof.
  intros. unfold openSocket. destruct (a_socket a <? 0); [reflexivity|].
  repeat match goal with |- context [if ?b then _ else _] => destruct b end; cbn [fst snd]; rewrite <- ?app_assoc; reflexivity.
Qed.

Lemma configure_x_log : forall fails ans fd configs n log log2 r l, configure_x fails ans fd configs n log = Ret (Returned (r, l)) ->
  exists l2, configure_x fails ans fd configs n log2 = Ret (Returned (r, l2)).
Proof.
  intros fails ans fd configs n log log2 r l E. unfold configure_x in *.
  destruct (_ && _ && _); [injection E as <- _; eauto|].
  destruct (n =? 0)%nat; [destruct (negb _); injection E as <- _; eauto|].
  destruct configs as [cs|]; [|discriminate]. destruct (convert_x fails 0 n cs) as [[fs|]|]; try discriminate. cbn [bind] in *.
  destruct (negb _); injection E as <- _; eauto.
Qed.
Lemma configure_x_threw : forall fails ans fd configs n log log2 l, configure_x fails ans fd configs n log = Ret (Threw l) ->
  exists l2, configure_x fails ans fd configs n log2 = Ret (Threw l2).
Proof.
  intros fails ans fd configs n log log2 l E. unfold configure_x in *.
  destruct (_ && _ && _); [discriminate|].
  destruct (n =? 0)%nat; [destruct (negb _); discriminate|].
  destruct configs as [cs|]; [|discriminate]. destruct (convert_x fails 0 n cs) as [[fs|]|]; try discriminate; cbn [bind] in *; [destruct (negb _); discriminate|].
  eauto.
Qed.

(** The same end in another world: [T] was there before. *)
Definition later {A B : Type} (world_of : ended A B -> world) (put : ended A B -> world -> ended A B) (T : list event) (e : ended A B) (x : ended A B) : Prop :=
  exists tr l, w_trace (world_of e) = T ++ tr /\ x = put e (World tr l).
Definition created_world (e : ended (result * option iface * world) world) : world := match e with Returned (_, _, w) => w | Threw w => w end.
Definition created_put (e : ended (result * option iface * world) world) (w : world) : ended (result * option iface * world) world :=
  match e with Returned (r, o, _) => Returned (r, o, w) | Threw _ => Threw w end.
Definition loop_world (e : ended (list iface * world) world) : world := match e with Returned (_, w) => w | Threw w => w end.
Definition loop_put (e : ended (list iface * world) world) (w : world) : ended (list iface * world) world :=
  match e with Returned (g, _) => Returned (g, w) | Threw _ => Threw w end.
Definition start_world (e : ended (result * option group * world) (option group * world)) : world := match e with Returned (_, _, w) => w | Threw (_, w) => w end.
Definition start_put (e : ended (result * option group * world) (option group * world)) (w : world) : ended (result * option group * world) (option group * world) :=
  match e with Returned (r, p, _) => Returned (r, p, w) | Threw (p, _) => Threw (p, w) end.

Lemma create_shift : forall mem t m i name configs n a T tr log log2 e, create_x mem t m i name configs n a (World (T ++ tr) log) = Ret e ->
  exists x, create_x mem t m i name configs n a (World tr log2) = Ret x /\ later created_world created_put T e x.
Proof.
  intros mem t m i name configs n a T tr log log2 e E. unfold create_x in *. cbn [w_trace w_filters] in *. rewrite open_shift in E.
  destruct (openSocket name (m_canfd m) (m_own m) a tr) as [fd tr1]. cbn [fst snd] in E.
  destruct (fd <=? 0); [injection E as <-; eexists; split; [reflexivity|exists tr1, log2; split; reflexivity]|].
  destruct (configure_x _ (a_filter a) fd configs n log) as [[[r1 l1]|l1]|] eqn:C; [| |discriminate]; cbn [bind] in *.
  - destruct (configure_x_log _ _ _ _ _ _ log2 _ _ C) as (l2 & C2). rewrite C2. cbn [bind].
    destruct (result_not r1); [|destruct (mem _)]; injection E as <-; eexists; (split; [reflexivity|]).
    + exists (tr1 ++ [Closed fd]), l2. split; [cbn; rewrite app_assoc|]; reflexivity.
    + exists (tr1 ++ [Closed fd]), l2. split; [cbn; rewrite app_assoc|]; reflexivity.
    + exists tr1, l2. split; reflexivity.
  - destruct (configure_x_threw _ _ _ _ _ _ log2 _ C) as (l2 & C2). rewrite C2. cbn [bind]. injection E as <-. eexists. split; [reflexivity|].
    exists (tr1 ++ [Closed fd]), l2. split; [cbn; rewrite app_assoc|]; reflexivity.
Qed.

Lemma start_loop_shift : forall mem m configs n kernel T fuel i t acc tr log log2 e,
  start_loop_x mem fuel i t m configs n kernel acc (World (T ++ tr) log) = Some (Ret e) ->
  exists x, start_loop_x mem fuel i t m configs n (fun t tr => kernel t (T ++ tr)) acc (World tr log2) = Some (Ret x) /\ later loop_world loop_put T e x.
Proof.
  intros mem m configs n kernel T. induction fuel as [|k IH]; intros i t acc tr log log2 e E; [discriminate|]. cbn [start_loop_x] in *.
  destruct (i <? Z.of_nat (length (m_required m))).
  - destruct (nth_error (m_required m) (Z.to_nat i)) as [name|]; [|discriminate]. cbn [w_trace] in *.
    destruct (create_x mem t m i name configs n (kernel t (T ++ tr)) (World (T ++ tr) log)) as [c|] eqn:C; [|discriminate].
    destruct (create_shift _ _ _ _ _ _ _ _ _ _ _ log2 _ C) as (x & C1 & tr1 & l1 & W & ->). rewrite C1.
    destruct c as [[[r o] w1]|w1]; cbn [created_world created_put] in *.
    + destruct w1 as [tw lw]. cbn [w_trace] in W. subst tw. eapply IH. exact E.
    + injection E as <-. eexists. split; [reflexivity|]. eexists _, l1. split; [|reflexivity]. cbn [loop_world w_trace]. rewrite W. unfold destroy.
      rewrite <- app_assoc. reflexivity.
  - injection E as <-. eexists. split; [reflexivity|]. exists tr, log2. split; reflexivity.
Qed.

Lemma start_shift : forall mem fuel m configs n kernel T log e,
  start_x mem fuel m configs n kernel None (World T log) = Some (Ret e) ->
  exists x, start_x mem fuel m configs n (fun t tr => kernel t (T ++ tr)) None (World [] []) = Some (Ret x) /\ later start_world start_put T e x.
Proof.
  intros mem fuel m configs n kernel T log e E. unfold start_x in *. destruct (mem P_reserve).
  { injection E as <-. eexists. split; [reflexivity|]. exists [], []. split; [cbn; rewrite app_nil_r|]; reflexivity. }
  destruct (start_loop_x mem fuel 0 0 m configs n kernel [] (World T log)) as [[l|]|] eqn:S; try discriminate.
  rewrite <- (app_nil_r T) in S. destruct (start_loop_shift _ _ _ _ _ _ _ _ _ _ _ _ [] _ S) as (x & S2 & tr & l2 & W & ->). rewrite S2.
  destruct l as [[[|f g] w]|w]; cbn [loop_put loop_world] in *.
  - injection E as <-. eexists. split; [reflexivity|]. exists tr, l2. split; auto.
  - destruct (_ || _); injection E as <-; eexists; (split; [reflexivity|]).
    + eexists _, l2. split; [|reflexivity]. cbn [start_world w_trace]. rewrite W. unfold destroy. rewrite <- app_assoc. reflexivity.
    + exists tr, l2. split; [|reflexivity]. exact W.
  - injection E as <-. eexists. split; [reflexivity|]. exists tr, l2. split; auto.
Qed.

(** ** Steps of one thread *)
Lemma set_same : forall A t (x y : A) l, replace_nth t x (replace_nth t y l) = replace_nth t x l.
Proof. induction t as [|t IH]; intros x y [|a l]; simpl; auto. rewrite IH. reflexivity. Qed.

Lemma go_next : forall t heap vars table doing k s1 s2, (t < length doing)%nat ->
  go t k (Life heap vars table (replace_nth t k doing)) = Some (Ret s1) -> goes_on t s1 s2 ->
  goes_on t (Life heap vars table (replace_nth t k doing)) s2.
Proof.
  intros t heap vars table doing k s1 s2 L G H. eapply goes_step; [|exact H]. cbn [life_step l_doing].
  rewrite nth_error_replace_same by exact L. exact G.
Qed.

Lemma go_end : forall t heap vars table doing, (t < length doing)%nat ->
  goes_on t (Life heap vars table (replace_nth t Idle doing)) (Life heap vars table (replace_nth t Idle doing)).
Proof. intros. apply goes_end. cbn [l_doing]. apply nth_error_replace_same. auto. Qed.

(** What [then_check] needs. *)
Definition fine (heap : list cell) (vars : list (option nat)) (back : option nat) : Prop :=
  match back with
  | None => True
  | Some v => exists i g n, nth_error vars v = Some (Some i) /\ nth_error heap i = Some (Cell g (S n))
  end.

Lemma check_run : forall t heap vars table doing back, (t < length doing)%nat -> fine heap vars back ->
  goes_on t (Life heap vars table (replace_nth t (then_check back) doing)) (Life heap vars table (replace_nth t Idle doing)).
Proof.
  intros t heap vars table doing [v|] L F; cbn [then_check]; [|apply go_end; exact L].
  destruct F as (i & g & n & V & H). eapply go_next; [exact L| |].
  - cbn [go l_vars]. rewrite V. unfold alive. cbn [l_heap]. rewrite H. reflexivity.
  - unfold now. cbn [l_heap l_vars l_table l_doing]. rewrite set_same. apply go_end. exact L.
Qed.

Lemma closing_run : forall t heap vars doing i back ds table table', (t < length doing)%nat -> fine heap vars back ->
  replay table (map Closed ds) = Some table' ->
  goes_on t (Life heap vars table (replace_nth t (Closing i ds back) doing)) (Life heap vars table' (replace_nth t Idle doing)).
Proof.
  intros t heap vars doing i back. induction ds as [|d ds IH]; intros table table' L F R.
  - cbn in R. injection R as <-. eapply go_next; [exact L | reflexivity|]. unfold now. cbn [l_heap l_vars l_table l_doing].
    rewrite set_same. apply check_run; auto.
  - cbn [map replay] in R. destruct (existsb (Z.eqb d) table); [|discriminate].
    eapply go_next; [exact L | reflexivity|]. unfold now. cbn [l_heap l_vars l_table l_doing]. rewrite set_same. apply IH; auto.
Qed.

Lemma release_run : forall live t doing i back heap vars w s' table, (t < length doing)%nat ->
  release (Some i) (Owners heap vars w) = Ret s' -> fine (o_heap s') (o_vars s') back ->
  replay live (w_trace w) = Some table ->
  forall table', replay live (w_trace (o_world s')) = Some table' ->
  goes_on t (Life heap vars table (replace_nth t (Releasing i back) doing)) (Life (o_heap s') (o_vars s') table' (replace_nth t Idle doing)).
Proof.
  intros live t doing i back heap vars w s' table L R F T table' T'. cbn [release o_heap] in R.
  destruct (nth_error heap i) as [[g [|n]]|] eqn:H; try discriminate. injection R as <-. cbn [o_heap o_vars o_world] in *.
  eapply go_next; [exact L | cbn [go l_heap]; rewrite H; reflexivity|]. unfold now. cbn [l_heap l_vars l_table l_doing]. rewrite set_same.
  destruct (n =? 0)%nat eqn:Z0.
  - apply closing_run; auto. cbn [w_trace] in T'. rewrite fold_destroy, replay_app, T in T'. exact T'.
  - rewrite T in T'. injection T' as <-. apply check_run; auto.
Qed.

Lemma assign_run : forall live t doing v p back heap vars w s' table, (t < length doing)%nat ->
  assign v p (Owners heap vars w) = Ret s' -> fine (o_heap s') (o_vars s') back ->
  replay live (w_trace w) = Some table ->
  forall table', replay live (w_trace (o_world s')) = Some table' ->
  goes_on t (Life heap vars table (replace_nth t (Storing v p back) doing)) (Life (o_heap s') (o_vars s') table' (replace_nth t Idle doing)).
Proof.
  intros live t doing v p back heap vars w s' table L A F T table' T'. unfold assign in A. cbn [o_vars o_heap o_world] in A.
  destruct (nth_error vars v) as [old|] eqn:V; [|discriminate].
  eapply go_next; [exact L | cbn [go l_vars]; rewrite V; reflexivity|]. unfold now. cbn [l_heap l_vars l_table l_doing]. rewrite set_same.
  destruct old as [i|].
  - eapply release_run; eauto.
  - cbn [release] in A. injection A as <-. cbn [o_heap o_vars o_world] in *. rewrite T in T'. injection T' as <-. apply check_run; auto.
Qed.

Lemma starting_run : forall t heap vars doing v p s2 todo past table table1, (t < length doing)%nat ->
  replay table todo = Some table1 ->
  goes_on t (Life heap vars table1 (replace_nth t (Starting v (past ++ todo) [] p) doing)) s2 ->
  goes_on t (Life heap vars table (replace_nth t (Starting v past todo p) doing)) s2.
Proof.
  intros t heap vars doing v p s2. induction todo as [|[d|d] todo IH]; intros past table table1 L R H.
  - cbn in R. injection R as <-. rewrite app_nil_r in H. exact H.
  - cbn [replay] in R. destruct (existsb (Z.eqb d) table) eqn:X; [discriminate|].
    eapply go_next; [exact L | cbn [go]; unfold is_open; cbn [l_table]; rewrite X; reflexivity|].
    unfold now. cbn [l_heap l_vars l_table l_doing]. rewrite set_same. eapply IH; eauto. rewrite <- app_assoc. exact H.
  - cbn [replay] in R. destruct (existsb (Z.eqb d) table) eqn:X; [|discriminate].
    eapply go_next; [exact L | reflexivity|].
    unfold now. cbn [l_heap l_vars l_table l_doing]. rewrite set_same. eapply IH; eauto. rewrite <- app_assoc. exact H.
Qed.

Lemma set_idle : forall A t (k : A) doing, nth_error doing t = Some k -> replace_nth t k doing = doing.
Proof. induction t as [|t IH]; intros k [|a l] E; try discriminate; simpl in *; [congruence|]. rewrite IH; auto. Qed.

Lemma alone : forall live t doing fuel u o s a s' table table',
  nth_error doing t = Some Idle -> (forall v i, nth_error (o_vars s) v = Some (Some i) -> (i < length (o_heap s))%nat) ->
  as_op fuel u (w_trace (o_world s)) = Some o ->
  do_use fuel u s = Some (Ret (a, s')) ->
  replay live (w_trace (o_world s)) = Some table -> replay live (w_trace (o_world s')) = Some table' ->
  makes t o (Life (o_heap s) (o_vars s) table doing) (Life (o_heap s') (o_vars s') table' doing).
Proof.
  intros live t doing fuel u o [heap vars w] a s' table table' ID IN O E T T'. cbn [o_heap o_vars o_world] in *.
  assert (L : (t < length doing)%nat) by (apply nth_error_Some; congruence).
  pose proof (set_idle _ t _ doing ID) as SI.
  destruct u as [v m configs n kernel mem|v|dst src|v| | | |]; try discriminate O; injection O as <-; cbn [do_use o_world o_heap o_vars] in E.
  - destruct (start_x mem fuel m configs n kernel None w) as [[e|]|] eqn:S; [|discriminate..].
    destruct w as [T0 log]. cbn [w_trace] in *. destruct (start_shift _ _ _ _ _ _ _ _ _ S) as (x & S2 & tr & l2 & W & ->).
    assert (Q : exists p w1, w_trace w1 = T0 ++ tr /\
      begin t (Start v fuel m configs n (fun t tr => kernel t (T0 ++ tr)) mem) (Life heap vars table doing) =
        Some (Ret (now t (Starting v [] tr p) (Life heap vars table doing))) /\
      match p with
      | None => s' = Owners heap vars w1
      | Some g => assign v (Some (length heap)) (Owners (heap ++ [Cell g 1]) vars w1) = Ret s'
      end).
    { destruct e as [[[r p] w1]|[p w1]]; cbn [start_world start_put] in *.
      - exists p, w1. split; [exact W|]. split; [cbn [begin]; rewrite S2; reflexivity|]. destruct p as [g|]; [|injection E as _ <-; reflexivity].
        destruct (assign _ _ _); [|discriminate]. injection E as _ <-. reflexivity.
      - exists None, w1. split; [exact W|]. split; [cbn [begin]; rewrite S2; reflexivity|]. injection E as _ <-. reflexivity. }
    clear E S S2 W e. destruct Q as (p & w1 & W & B & E).
    eexists. split; [cbn [life_step l_doing]; rewrite ID; exact B|].
    unfold now. cbn [l_heap l_vars l_table l_doing].
    destruct p as [g|].
    + rename E into A.
      destruct (replay live (w_trace w1)) as [t1|] eqn:T1.
      2:{ exfalso. clear - A T1 T'. unfold assign in A. cbn [o_vars] in A. destruct (nth_error vars v) as [[i|]|]; try discriminate.
          - cbn [release o_heap o_world o_vars] in A. destruct (nth_error (heap ++ [Cell g 1]) i) as [[g2 [|k]]|]; try discriminate. injection A as <-.
            cbn [o_world] in T'. destruct (k =? 0)%nat; [|congruence]. cbn [w_trace] in T'. rewrite fold_destroy, replay_app, T1 in T'. discriminate.
          - cbn [release] in A. injection A as <-. cbn [o_world] in T'. congruence. }
      apply (starting_run t heap vars doing v (Some g) _ tr [] table t1 L).
      { rewrite W, replay_app, T in T1. exact T1. }
      eapply go_next; [exact L | reflexivity|]. unfold now. cbn [l_heap l_vars l_table l_doing app]. rewrite set_same.
      rewrite <- SI at 2. eapply (assign_run live); eauto.
      (* the pointer just stored *)
      clear - A IN. unfold assign in A. cbn [o_vars] in A. destruct (nth_error vars v) as [old|] eqn:V; [|discriminate].
      assert (LV : (v < length vars)%nat) by (apply nth_error_Some; congruence).
      assert (NV : nth_error (replace_nth v (Some (length heap)) vars) v = Some (Some (length heap))) by (apply nth_error_replace_same; exact LV).
      assert (NH : nth_error (heap ++ [Cell g 1]) (length heap) = Some (Cell g 1)) by (rewrite nth_error_app2, Nat.sub_diag by lia; reflexivity).
      destruct old as [i|].
      * cbn [release o_heap o_world o_vars] in A. destruct (nth_error (heap ++ [Cell g 1]) i) as [[g2 [|k]]|] eqn:H; try discriminate. injection A as <-.
        cbn [o_heap o_vars fine]. exists (length heap).
        assert (N : i <> length heap) by (specialize (IN v i V); lia).
        exists g, 0%nat. split; [exact NV|]. rewrite (nth_error_replace_other _ i (length heap)) by exact N. exact NH.
      * cbn [release] in A. injection A as <-. cbn [o_heap o_vars fine]. exists (length heap), g, 0%nat. auto.
    + subst s'. cbn [o_heap o_vars o_world] in *.
      apply (starting_run t heap vars doing v None _ tr [] table table' L).
      { rewrite W, replay_app, T in T'. exact T'. }
      eapply go_next; [exact L | reflexivity|]. unfold now. cbn [l_heap l_vars l_table l_doing app]. rewrite set_same, SI. 
      apply goes_end. exact ID.
  - destruct (assign v None (Owners heap vars w)) as [s1|] eqn:A; [|discriminate]. cbn [bind] in E. injection E as _ <-.
    eexists. split; [cbn [life_step l_doing]; rewrite ID; reflexivity|]. unfold now. cbn [l_heap l_vars l_table l_doing].
    rewrite <- SI at 2. eapply (assign_run live); eauto. exact Logic.I.
  - destruct (nth_error vars src) as [[i|]|] eqn:V; try discriminate.
    + cbn [retain o_heap o_vars o_world] in E. destruct (nth_error heap i) as [[g [|n]]|] eqn:H; try discriminate. cbn [bind] in E.
      destruct (assign dst (Some i) _) as [s1|] eqn:A; [|discriminate]. cbn [bind] in E. injection E as _ <-.
      eexists. split; [cbn [life_step l_doing]; rewrite ID; cbn [begin l_vars]; rewrite V; reflexivity|]. unfold now. cbn [l_heap l_vars l_table l_doing].
      eapply go_next; [exact L | cbn [go l_heap]; rewrite H; reflexivity|]. unfold now. cbn [l_heap l_vars l_table l_doing app]. rewrite set_same.
      rewrite <- SI at 2. eapply (assign_run live); eauto. exact Logic.I.
    + cbn [retain bind] in E. destruct (assign dst None _) as [s1|] eqn:A; [|discriminate]. cbn [bind] in E. injection E as _ <-.
      eexists. split; [cbn [life_step l_doing]; rewrite ID; cbn [begin l_vars]; rewrite V; reflexivity|]. unfold now. cbn [l_heap l_vars l_table l_doing].
      rewrite <- SI at 2. eapply (assign_run live); eauto. exact Logic.I.
  - destruct (assign v None (Owners heap vars w)) as [s1|] eqn:A; [|discriminate]. cbn [bind] in E. injection E as _ <-.
    eexists. split; [cbn [life_step l_doing]; rewrite ID; reflexivity|]. unfold now. cbn [l_heap l_vars l_table l_doing].
    rewrite <- SI at 2. eapply (assign_run live); eauto. exact Logic.I.
Qed.
