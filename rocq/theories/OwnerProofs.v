(** Proofs about programs with several pointers to interface groups. *)
From Coq Require Import ZArith Bool String List Lia Permutation.
From Verif Require Import Outcome ResultModel CanFrameModel CanFrameProofs SocketCanModel SocketCanSpec SocketCanProofs GroupModel GroupSpec GroupProofs
  ManagerModel ManagerSpec ManagerProofs MainProofs ContainerProofs ClientModel ClientSpec ClientProofs OomModel OomSpec OomProofs OwnerModel OwnerSpec.
Import ListNotations.
Open Scope Z_scope.

Definition ptr_dec : forall a b : option nat, {a = b} + {a <> b}.
Proof. decide equality. apply Nat.eq_dec. Defined.
Definition b2n (p q : option nat) : nat := if ptr_dec p q then 1 else 0.
Notation uses vars i := (count_occ ptr_dec vars (Some i)).

Definition held_cell (c : cell) : list Z := if (c_uses c =? 0)%nat then [] else map getSocketDescriptor (c_group c).
Definition heap_held (h : list cell) : list Z := flat_map held_cell h.

(** Use counts are right, with one more reference [p] that is not in a variable. *)
Record counted (p : option nat) (s : owners) : Prop := {
  ct_uses : forall i c, nth_error (o_heap s) i = Some c -> c_uses c = (uses (o_vars s) i + b2n p (Some i))%nat;
  ct_in : forall i, In (Some i) (o_vars s) \/ p = Some i -> (i < length (o_heap s))%nat;
  ct_ok : Forall (fun c => group_ok (c_group c)) (o_heap s) }.
Definition sockets (live : list Z) (s : owners) : Prop :=
  exists now zeros, replay live (w_trace (o_world s)) = Some now /\ NoDup now /\ Forall (eq 0) zeros /\
    Permutation now (live ++ zeros ++ heap_held (o_heap s)).

Lemma count_replace : forall vars v old p x, nth_error vars v = Some old ->
  (count_occ ptr_dec (replace_nth v p vars) x + b2n old x = count_occ ptr_dec vars x + b2n p x)%nat.
Proof.
  induction vars as [|h t IH]; intros [|v] old p x E; cbn [nth_error] in E; try discriminate; cbn [replace_nth count_occ].
  - injection E as ->. unfold b2n. destruct (ptr_dec p x), (ptr_dec old x); lia.
  - specialize (IH v old p x E). destruct (ptr_dec h x); lia.
Qed.
Lemma in_replace : forall vars v (p x : option nat), In x (replace_nth v p vars) -> In x vars \/ x = p.
Proof.
  induction vars as [|h t IH]; intros [|v] p x I; cbn [replace_nth In] in *; try tauto.
  - destruct I as [->|I]; auto.
  - destruct I as [->|I]; auto. apply IH in I. tauto.
Qed.

(** ** Releasing *)
Lemma release_ok : forall live p s, counted p s -> sockets live s ->
  exists s', release p s = Ret s' /\ counted None s' /\ sockets live s' /\ o_vars s' = o_vars s /\
    map c_group (o_heap s') = map c_group (o_heap s) /\ w_filters (o_world s') = w_filters (o_world s).
Proof.
  intros live [i|] s C SK.
  2:{ exists s. cbn. auto 10. }
  pose proof (ct_in _ _ C i (or_intror eq_refl)) as L. cbn [release].
  destruct (nth_error (o_heap s) i) as [[g [|n]]|] eqn:E; [| |apply nth_error_None in E; lia].
  { exfalso. pose proof (ct_uses _ _ C i _ E) as U. cbn [c_uses] in U. unfold b2n in U. destruct (ptr_dec (Some i) (Some i)); [lia|congruence]. }
  pose proof (ct_uses _ _ C i _ E) as U. cbn [c_uses] in U.
  assert (B : b2n (Some i) (Some i) = 1%nat) by (unfold b2n; destruct (ptr_dec (Some i) (Some i)); congruence).
  rewrite B in U. eexists. split; [reflexivity|].
  destruct (nth_error_split _ _ E) as (h1 & h2 & H & LH).
  assert (RP : replace_nth i (Cell g n) (o_heap s) = h1 ++ Cell g n :: h2) by (rewrite H; now apply replace_mid).
  split; [|split; [|split; [reflexivity|split]]]; cbn [o_heap o_vars o_world].
  - constructor; cbn [o_heap o_vars].
    + intros j c J. rewrite nth_error_replace_nth in J. destruct (Nat.eqb_spec j i) as [->|N].
      * rewrite E in J. injection J as <-. cbn [c_uses]. cbn [b2n]. unfold b2n. destruct (ptr_dec None (Some i)); [discriminate|lia].
      * rewrite (ct_uses _ _ C j c J). unfold b2n. destruct (ptr_dec (Some i) (Some j)); [congruence|]. destruct (ptr_dec None (Some j)); [discriminate|lia].
    + intros j [J|J]; [|discriminate]. rewrite replace_nth_length. apply (ct_in _ _ C). auto.
    + apply replace_nth_Forall; [apply (ct_ok _ _ C)|]. pose proof (ct_ok _ _ C) as F. rewrite Forall_forall in F.
      apply (F (Cell g (S n))). eapply nth_error_In; eauto.
  - destruct SK as (now & zeros & R & ND & Z & P). unfold sockets. cbn [o_heap o_world]. rewrite RP.
    rewrite H in P. unfold heap_held in P |- *. rewrite flat_map_app in P |- *. cbn [flat_map] in P |- *.
    unfold held_cell at 2 in P. unfold held_cell at 2. cbn [c_uses c_group] in P |- *. cbn [Nat.eqb] in P.
    destruct (Nat.eqb_spec n 0) as [->|N].
    + cbn [w_trace app]. rewrite fold_destroy, replay_app, R.
      destruct (replay_close (map getSocketDescriptor g) now (live ++ zeros ++ flat_map held_cell h1 ++ flat_map held_cell h2)) as (l & A & B1 & D); auto.
      { rewrite P. rewrite <- !app_assoc. apply Permutation_app_head, Permutation_app_head. apply Permutation_app_head. apply Permutation_app_comm. }
      exists l, zeros. auto.
    + exists now, zeros. auto.
  - rewrite RP, H. rewrite !map_app. reflexivity.
  - destruct (n =? 0)%nat; reflexivity.
Qed.

Lemma assign_ok : forall live v p s, (v < length (o_vars s))%nat -> counted p s -> sockets live s ->
  exists s', assign v p s = Ret s' /\ counted None s' /\ sockets live s' /\ o_vars s' = replace_nth v p (o_vars s) /\
    map c_group (o_heap s') = map c_group (o_heap s) /\ w_filters (o_world s') = w_filters (o_world s).
Proof.
  intros live v p s L C SK. unfold assign. destruct (nth_error (o_vars s) v) as [old|] eqn:E; [|apply nth_error_None in E; lia].
  destruct (release_ok live old (Owners (o_heap s) (replace_nth v p (o_vars s)) (o_world s))) as (s' & R & C' & S' & V & G & F).
  - constructor; cbn [o_heap o_vars].
    + intros i c I. rewrite (ct_uses _ _ C i c I). pose proof (count_replace (o_vars s) v old p (Some i) E). lia.
    + intros i [I|I].
      * apply in_replace in I. destruct I as [I|I]; apply (ct_in _ _ C); auto.
      * subst old. apply (ct_in _ _ C). left. eapply nth_error_In; eauto.
    + apply (ct_ok _ _ C).
  - exact SK.
  - exists s'. cbn [o_heap o_vars o_world] in *. auto 10.
Qed.

Lemma retain_ok : forall live p s, In p (o_vars s) -> counted None s -> sockets live s ->
  exists s', retain p s = Ret s' /\ counted p s' /\ sockets live s' /\ o_vars s' = o_vars s /\
    map c_group (o_heap s') = map c_group (o_heap s) /\ o_world s' = o_world s.
Proof.
  intros live [i|] s I C SK.
  2:{ exists s. cbn. auto 10. }
  pose proof (ct_in _ _ C i (or_introl I)) as L. cbn [retain].
  destruct (nth_error (o_heap s) i) as [[g [|n]]|] eqn:E; [| |apply nth_error_None in E; lia].
  { exfalso. pose proof (ct_uses _ _ C i _ E) as U. cbn [c_uses] in U. apply (count_occ_In ptr_dec) in I. lia. }
  pose proof (ct_uses _ _ C i _ E) as U. cbn [c_uses] in U.
  eexists. split; [reflexivity|].
  destruct (nth_error_split _ _ E) as (h1 & h2 & H & LH).
  assert (RP : replace_nth i (Cell g (S (S n))) (o_heap s) = h1 ++ Cell g (S (S n)) :: h2) by (rewrite H; now apply replace_mid).
  split; [|split; [|split; [reflexivity|split]]]; cbn [o_heap o_vars o_world].
  - constructor; cbn [o_heap o_vars].
    + intros j c J. rewrite nth_error_replace_nth in J. unfold b2n in *. destruct (Nat.eqb_spec j i) as [->|N].
      * rewrite E in J. injection J as <-. cbn [c_uses]. destruct (ptr_dec (Some i) (Some i)); [|congruence]. destruct (ptr_dec None (Some i)); [discriminate|lia].
      * rewrite (ct_uses _ _ C j c J). unfold b2n. destruct (ptr_dec (Some i) (Some j)); [congruence|]. destruct (ptr_dec None (Some j)); [discriminate|lia].
    + intros j [J|J]; rewrite replace_nth_length; apply (ct_in _ _ C); auto. left. congruence.
    + apply replace_nth_Forall; [apply (ct_ok _ _ C)|]. pose proof (ct_ok _ _ C) as F. rewrite Forall_forall in F.
      apply (F (Cell g (S n))). eapply nth_error_In; eauto.
  - destruct SK as (now & zeros & R & ND & Z & P). exists now, zeros. cbn [o_heap o_world]. rewrite RP.
    rewrite H in P. unfold heap_held in *. rewrite flat_map_app in *. cbn [flat_map] in *. auto.
  - rewrite RP, H. rewrite !map_app. reflexivity.
  - reflexivity.
Qed.

Lemma store_ok : forall live i g n g' s, nth_error (o_heap s) i = Some (Cell g n) -> group_ok g' ->
  map getSocketDescriptor g' = map getSocketDescriptor g -> counted None s -> sockets live s ->
  counted None (store i g' s) /\ sockets live (store i g' s) /\ o_vars (store i g' s) = o_vars s /\ o_world (store i g' s) = o_world s /\
  forall j, j <> i -> nth_error (o_heap (store i g' s)) j = nth_error (o_heap s) j.
Proof.
  intros live i g n g' s E GO FD C SK. unfold store. rewrite E.
  destruct (nth_error_split _ _ E) as (h1 & h2 & H & LH).
  assert (RP : replace_nth i (Cell g' n) (o_heap s) = h1 ++ Cell g' n :: h2) by (rewrite H; now apply replace_mid).
  split; [|split; [|split; [reflexivity|split; [reflexivity|]]]].
  - constructor; cbn [o_heap o_vars].
    + intros j c J. rewrite nth_error_replace_nth in J. destruct (Nat.eqb_spec j i) as [->|N].
      * rewrite E in J. injection J as <-. exact (ct_uses _ _ C i _ E).
      * exact (ct_uses _ _ C j c J).
    + intros j J. rewrite replace_nth_length. apply (ct_in _ _ C). auto.
    + apply replace_nth_Forall; [apply (ct_ok _ _ C)|exact GO].
  - destruct SK as (now & zeros & R & ND & Z & P). exists now, zeros. cbn [o_heap o_world]. rewrite RP.
    rewrite H in P. unfold heap_held in *. rewrite flat_map_app in *. cbn [flat_map] in *.
    assert (HC : held_cell (Cell g' n) = held_cell (Cell g n)) by (unfold held_cell; cbn [c_uses c_group]; now rewrite FD).
    rewrite HC. auto.
  - intros j N. cbn [o_heap]. rewrite nth_error_replace_nth. destruct (Nat.eqb_spec j i); congruence.
Qed.

Lemma deref_ok : forall v i s, points s v i -> counted None s ->
  exists g n, nth_error (o_heap s) i = Some (Cell g (S n)) /\ deref v s = Ret (i, g) /\ group_ok g.
Proof.
  intros v i s P C. unfold deref, points in *. rewrite P. apply nth_error_In in P.
  pose proof (ct_in _ _ C i (or_introl P)) as L. destruct (nth_error (o_heap s) i) as [[g [|n]]|] eqn:E; [| |apply nth_error_None in E; lia].
  - exfalso. pose proof (ct_uses _ _ C i _ E) as U. cbn [c_uses] in U. apply (count_occ_In ptr_dec) in P. lia.
  - exists g, n. split; [reflexivity|]. split; [reflexivity|]. pose proof (ct_ok _ _ C) as F. rewrite Forall_forall in F.
    apply (F (Cell g (S n))). eapply nth_error_In; eauto.
Qed.

(** ** Starting *)
Lemma started_ok : forall live heap vars w g, group_ok g -> counted None (Owners heap vars w) -> forall w',
  (exists now zeros, replay live (w_trace w') = Some now /\ NoDup now /\ Forall (eq 0) zeros /\
    Permutation now (live ++ zeros ++ heap_held heap ++ map getSocketDescriptor g)) ->
  counted (Some (length heap)) (Owners (heap ++ [Cell g 1]) vars w') /\ sockets live (Owners (heap ++ [Cell g 1]) vars w').
Proof.
  intros live heap vars w g GO C w' SK. split.
  - constructor; cbn [o_heap o_vars].
    + intros i c I. destruct (Nat.lt_ge_cases i (length heap)) as [L|L].
      * rewrite nth_error_app1 in I by auto. rewrite (ct_uses _ _ C i c I). cbn [o_vars]. unfold b2n.
        destruct (ptr_dec None (Some i)); [discriminate|]. destruct (ptr_dec (Some (length heap)) (Some i)) as [Q|Q]; [injection Q; lia|lia].
      * rewrite nth_error_app2 in I by auto. destruct (i - length heap)%nat as [|k] eqn:D; [|destruct k; discriminate].
        assert (i = length heap) by lia. subst i. cbn [nth_error] in I. injection I as <-. cbn [c_uses].
        assert (U : uses vars (length heap) = 0%nat).
        { apply count_occ_not_In. intros Q. pose proof (ct_in _ _ C _ (or_introl Q)) as B. cbn [o_heap] in B. lia. }
        rewrite U. unfold b2n. destruct (ptr_dec (Some (length heap)) (Some (length heap))); [reflexivity|congruence].
    + intros i [I|I]; rewrite app_length; cbn [length].
      * pose proof (ct_in _ _ C _ (or_introl I)) as B. cbn [o_heap] in B. lia.
      * injection I as <-. lia.
    + apply Forall_app. split; [apply (ct_ok _ _ C)|]. constructor; auto.
  - destruct SK as (now & zeros & R & ND & Z & P). exists now, zeros. cbn [o_heap o_world]. unfold heap_held in *. rewrite flat_map_app. cbn [flat_map].
    unfold held_cell at 2. cbn [c_uses c_group Nat.eqb]. rewrite app_nil_r. auto.
Qed.

Lemma world_changed : forall live s w, counted None s -> w_trace w = w_trace (o_world s) -> sockets live s ->
  counted None (Owners (o_heap s) (o_vars s) w) /\ sockets live (Owners (o_heap s) (o_vars s) w).
Proof.
  intros live s w C T (now & zeros & SK). split; [destruct C; constructor; auto|]. exists now, zeros. cbn [o_heap o_world]. rewrite T. exact SK.
Qed.

Lemma reconfigure_x_adds : forall fails ans configs n g fuel i t log e, reconfigure_loop_x fails fuel i t g ans configs n log = Some (Ret e) ->
  exists add, match e with Returned (_, l) => l | Threw l => l end = add ++ log /\ Forall (fun x => In (fst x) (map getSocketDescriptor g)) add.
Proof.
  intros fails ans configs n g. induction fuel as [|k IH]; intros i t log e E; [discriminate|]. cbn [reconfigure_loop_x] in E.
  assert (NIL : exists add, log = add ++ log /\ Forall (fun x : Z * list kfilter => In (fst x) (map getSocketDescriptor g)) add) by (exists []; auto).
  destruct (i <? _); [|injection E as <-; exact NIL]. destruct (nth_error g (Z.to_nat i)) as [s|] eqn:N; [|discriminate].
  assert (IN : In (getSocketDescriptor s) (map getSocketDescriptor g)) by (apply in_map; eapply nth_error_In; eauto).
  unfold configure_x in E.
  assert (STEP : forall fs, reconfigure_loop_x fails k ((i + 1) mod 256) (S t) g ans configs n ((getSocketDescriptor s, fs) :: log) = Some (Ret e) ->
    exists add, match e with Returned (_, l) => l | Threw l => l end = add ++ log /\ Forall (fun x => In (fst x) (map getSocketDescriptor g)) add).
  { intros fs Q. apply IH in Q. destruct Q as (add & Q1 & Q2). exists (add ++ [(getSocketDescriptor s, fs)]). rewrite <- app_assoc. split; [exact Q1|].
    apply Forall_app. split; [exact Q2|]. constructor; auto. }
  destruct (_ && _ && _); [injection E as <-; exact NIL|]. destruct (n =? 0)%nat.
  - destruct (negb (ans _ _ _ =? _)); [injection E as <-; exact NIL|]. eapply STEP. exact E.
  - destruct configs as [cs|]; [|discriminate]. destruct (convert_x _ _ _ _) as [[fs|]|]; cbn [bind] in E; [| |discriminate].
    + destruct (negb (ans _ _ _ =? _)); [injection E as <-; exact NIL|]. eapply STEP. exact E.
    + injection E as <-. exact NIL.
Qed.

Lemma reconfigure_x_defined : forall fails ans configs n, configs_ok configs n -> forall todo done fuel log,
  (length (done ++ todo) <= 255)%nat -> (length todo < fuel)%nat ->
  exists e, reconfigure_loop_x fails fuel (Z.of_nat (length done)) (length done) (done ++ todo) ans configs n log = Some (Ret e).
Proof.
  intros fails ans configs n OK. induction todo as [|s todo IH]; intros done fuel log LEN F; (destruct fuel as [|k]; [cbn in F; lia|]); cbn [reconfigure_loop_x].
  - rewrite app_nil_r, Z.ltb_irrefl. eauto.
  - rewrite app_length in LEN. rewrite app_length. cbn [length] in *.
    destruct (Z.ltb_spec (Z.of_nat (length done)) (Z.of_nat (length done + S (length todo)))); [|lia].
    rewrite Nat2Z.id, nth_error_app2, Nat.sub_diag by lia. cbn [nth_error].
    destruct (configure_x_cases (fails (length done)) (ans (length done)) (getSocketDescriptor s) configs n log OK) as [([r log1] & -> & _)| ->]; [|eauto].
    destruct (result_not r); [eauto|]. rewrite Z.mod_small by lia.
    replace (done ++ s :: todo) with ((done ++ [s]) ++ todo) by (now rewrite <- app_assoc).
    replace (Z.of_nat (length done) + 1) with (Z.of_nat (length (done ++ [s]))) by (rewrite app_length; cbn; lia).
    replace (S (length done)) with (length (done ++ [s])) by (rewrite app_length; cbn; lia).
    apply IH; [rewrite !app_length; cbn [length]; lia|lia].
Qed.

(** A started group is well formed, whatever the fuel. *)
Lemma started_group_ok : forall fuel m configs num kernel w r g w', configs_ok configs num -> (length (m_required m) <= 255)%nat ->
  startInterfaceGroup fuel m configs num kernel None w = Some (Ret (r, Some g, w')) -> group_ok g.
Proof.
  intros fuel m configs num kernel w r g w' OK LEN E. destruct (start_ok m configs num kernel None w OK LEN Logic.I) as (r1 & o1 & w1 & A & G & _).
  pose proof (start_mono _ _ _ _ _ _ _ _ E (fuel + 256)%nat ltac:(lia)) as B. rewrite A in B by lia.
  assert (o1 = Some g) as -> by congruence. exact G.
Qed.

(** ** Every call *)
Definition groups_kept (u : use) (s s' : owners) : Prop :=
  forall i, (i < length (o_heap s))%nat -> ~ goes_through u s i -> the_group s' i = the_group s i.

Lemma the_group_map : forall s s' i, map c_group (o_heap s') = map c_group (o_heap s) -> the_group s' i = the_group s i.
Proof.
  intros s s' i E. unfold the_group. apply (f_equal (fun l => nth_error l i)) in E. rewrite !nth_error_map in E.
  destruct (nth_error (o_heap s') i), (nth_error (o_heap s) i); cbn in E; congruence.
Qed.

Lemma use_steps : forall live u s fuel a s', counted None s -> sockets live s -> legal_use live u s ->
  do_use fuel u s = Some (Ret (a, s')) -> counted None s' /\ sockets live s' /\ groups_kept u s s' /\ length (o_vars s') = length (o_vars s) /\
  (forall v, ~ sets u v -> nth_error (o_vars s') v = nth_error (o_vars s) v).
Proof.
  intros live u s fuel a s' C SK LG E. unfold groups_kept. destruct u; cbn [do_use legal_use goes_through sets] in *.
  - destruct LG as (LV & OK & FR & LEN).
    destruct (start_x _ _ _ _ _ _ _ _) as [[[[[r [g|]] w']|[p w']]|]|] eqn:ST; try discriminate.
    + injection E as E. apply bind_ret_inv in E. destruct E as (s1 & A & E). assert (s1 = s') as -> by congruence.
      apply start_x_returned in ST; [|auto]. pose proof (started_group_ok _ _ _ _ _ _ _ _ _ OK LEN ST) as GO.
      destruct SK as (now & zeros & R & ND & Z & P).
      destruct (start_sockets fuel m configs num kernel None (o_world s) live now now r (Some g) w' OK FR R ND) as (n' & z' & A1 & A2 & A3 & A4); auto.
      { cbn [owned]. now rewrite app_nil_r. }
      destruct (started_ok live (o_heap s) (o_vars s) (o_world s) g GO) with (w' := w') as [C1 S1].
      { destruct s; exact C. }
      { exists n', (zeros ++ z'). split; [auto|]. split; [auto|]. split; [apply Forall_app; auto|]. rewrite A4, P. cbn [owned]. rewrite <- !app_assoc.
        apply Permutation_app_head, Permutation_app_head. rewrite !app_assoc. apply Permutation_app_tail. apply Permutation_app_comm. }
      destruct (assign_ok live v (Some (length (o_heap s))) (Owners (o_heap s ++ [Cell g 1]) (o_vars s) w') LV C1 S1) as (s2 & B1 & B2 & B3 & B4 & B5 & B6).
      rewrite B1 in A. injection A as ->. cbn [o_vars o_heap] in *. split; [auto|]. split; [auto|]. split; [|split].
      * intros i L _. unfold the_group. apply (f_equal (fun l => nth_error l i)) in B5. rewrite !nth_error_map in B5.
        rewrite nth_error_app1 in B5 by auto. destruct (nth_error (o_heap s') i), (nth_error (o_heap s) i); cbn in B5; congruence.
      * rewrite B4. apply replace_nth_length.
      * intros w N. rewrite B4, nth_error_replace_nth. destruct (Nat.eqb_spec w v); congruence.
    + apply start_x_returned in ST; [|auto]. assert (s' = Owners (o_heap s) (o_vars s) w') as -> by congruence.
      destruct SK as (now & zeros & R & ND & Z & P).
      destruct (start_sockets fuel m configs num kernel None (o_world s) live now now r None w' OK FR R ND) as (n' & z' & A1 & A2 & A3 & A4); auto.
      { cbn [owned]. now rewrite app_nil_r. }
      split; [destruct C; constructor; auto|]. split; [|split; [|split]]; try reflexivity.
      exists n', (zeros ++ z'). cbn [o_heap o_world]. split; [auto|]. split; [auto|]. split; [apply Forall_app; auto|]. rewrite A4, P. cbn [owned].
      rewrite app_nil_r, <- !app_assoc. apply Permutation_app_head, Permutation_app_head. apply Permutation_app_comm.
    + assert (s' = Owners (o_heap s) (o_vars s) w') as -> by congruence.
      destruct SK as (now & zeros & R & ND & Z & P).
      destruct (start_x_threw _ _ _ _ _ _ _ _ _ _ _ _ OK FR R ND ST) as (_ & (n' & z' & A1 & A2 & A3 & A4) & _).
      split; [destruct C; constructor; auto|]. split; [|split; [|split]]; try reflexivity.
      exists n', (zeros ++ z'). cbn [o_heap o_world]. split; [auto|]. split; [auto|]. split; [apply Forall_app; auto|]. rewrite A4, P.
      rewrite <- !app_assoc. apply Permutation_app_head, Permutation_app_head. apply Permutation_app_comm.
  - destruct (assign_ok live v None s LG C SK) as (s2 & B1 & B2 & B3 & B4 & B5 & B6). rewrite B1 in E. cbn [bind] in E. assert (s2 = s') as -> by congruence.
    split; [auto|]. split; [auto|]. split; [|split].
    + intros i _ _. now apply the_group_map.
    + rewrite B4. apply replace_nth_length.
    + intros w N. rewrite B4, nth_error_replace_nth. destruct (Nat.eqb_spec w v); congruence.
  - destruct LG as [LD LS]. destruct (nth_error (o_vars s) src) as [p|] eqn:NP; [|discriminate].
    destruct (retain_ok live p s (nth_error_In _ _ NP) C SK) as (s1 & R1 & R2 & R3 & R4 & R5 & R6). rewrite R1 in E. cbn [bind] in E.
    destruct (assign_ok live dst p s1) as (s2 & B1 & B2 & B3 & B4 & B5 & B6); auto; [now rewrite R4|]. rewrite B1 in E. cbn [bind] in E. assert (s2 = s') as -> by congruence.
    split; [auto|]. split; [auto|]. split; [|split].
    + intros i _ _. apply the_group_map. congruence.
    + rewrite B4, R4. apply replace_nth_length.
    + intros w N. rewrite B4, R4, nth_error_replace_nth. destruct (Nat.eqb_spec w dst); congruence.
  - destruct (assign_ok live v None s LG C SK) as (s2 & B1 & B2 & B3 & B4 & B5 & B6). rewrite B1 in E. cbn [bind] in E. assert (s2 = s') as -> by congruence.
    split; [auto|]. split; [auto|]. split; [|split].
    + intros i _ _. now apply the_group_map.
    + rewrite B4. apply replace_nth_length.
    + intros w N. rewrite B4, nth_error_replace_nth. destruct (Nat.eqb_spec w v); congruence.
  - destruct (deref v s) as [[i g]|]; [|discriminate].
    assert (Q : exists log, s' = Owners (o_heap s) (o_vars s) (World (w_trace (o_world s)) log)).
    { destruct (reconfigure_loop_x _ _ _ _ _ _ _ _ _) as [[[[r log]|log]|]|]; try discriminate; exists log; congruence. }
    destruct Q as [log ->]. destruct (world_changed live s (World (w_trace (o_world s)) log) C eq_refl SK). auto 10.
  - destruct LG as ((j & PJ) & LG). destruct (deref_ok v j s PJ C) as (g & n & NE & D & GO). rewrite D in E. cbn [bind] in E.
    injection E as E. apply bind_ret_inv in E. destruct E as ([[[g' r] c] sent] & W & E). cbn in E. assert (s' = store j g' s) as -> by congruence.
    destruct LG as (I & F & N). destruct (write_ok sendmmsg g index frames frames_len GO I F N) as (g2 & r2 & c2 & sent2 & W2 & GO2).
    rewrite W in W2. assert (g2 = g') as -> by congruence.
    destruct (store_ok live j g (S n) g' s NE GO2 (group_write_fds _ _ _ _ _ _ _ _ _ _ W) C SK) as (A1 & A2 & A3 & A4 & A5).
    split; [auto|]. split; [auto|]. split; [|split].
    + intros i L NG. assert (i <> j) by (intros ->; auto). unfold the_group. now rewrite A5.
    + now rewrite A3.
    + intros; now rewrite A3.
  - destruct LG as ((j & PJ) & LG). destruct (deref_ok v j s PJ C) as (g & n & NE & D & GO). rewrite D in E. cbn [bind] in E.
    injection E as E. apply bind_ret_inv in E. destruct E as ([[[g' r] c] fr] & W & E). cbn in E. assert (s' = store j g' s) as -> by congruence.
    destruct LG as (I & F & N). destruct (read_ok res errno msgs g index out GO I F N) as (g2 & r2 & c2 & fr2 & W2 & GO2).
    rewrite W in W2. assert (g2 = g') as -> by congruence.
    destruct (store_ok live j g (S n) g' s NE GO2 (group_read_fds _ _ _ _ _ _ _ _ _ _ _ W) C SK) as (A1 & A2 & A3 & A4 & A5).
    split; [auto|]. split; [auto|]. split; [|split].
    + intros i L NG. assert (i <> j) by (intros ->; auto). unfold the_group. now rewrite A5.
    + now rewrite A3.
    + intros; now rewrite A3.
  - assert (s' = s) as ->.
    { injection E as E. apply bind_ret_inv in E. destruct E as ([i g] & _ & E). destruct fails; [congruence|].
      apply bind_ret_inv in E. destruct E as ([r req] & _ & E). congruence. }
    auto 10.
Qed.

Lemma use_defined : forall live u s fuel, counted None s -> sockets live s -> legal_use live u s -> (255 < fuel)%nat ->
  exists a s', do_use fuel u s = Some (Ret (a, s')).
Proof.
  intros live u s fuel C SK LG FU. destruct u; cbn [do_use legal_use] in *.
  - destruct LG as (LV & OK & FR & LEN).
    destruct (start_x_defined mem fuel m configs num kernel None (o_world s) OK LEN ltac:(lia)) as [e E]. rewrite E.
    destruct e as [[[r [g|]] w']|[p w']]; [|eauto..]. apply start_x_returned in E; [|auto].
    pose proof (started_group_ok _ _ _ _ _ _ _ _ _ OK LEN E) as GO.
    destruct SK as (now & zeros & R & ND & Z & P).
    destruct (start_sockets fuel m configs num kernel None (o_world s) live now now r (Some g) w' OK FR R ND) as (n' & z' & A1 & A2 & A3 & A4); auto.
    { cbn [owned]. now rewrite app_nil_r. }
    destruct (started_ok live (o_heap s) (o_vars s) (o_world s) g GO) with (w' := w') as [C1 S1].
    { destruct s; exact C. }
    { exists n', (zeros ++ z'). split; [auto|]. split; [auto|]. split; [apply Forall_app; auto|]. rewrite A4, P. cbn [owned]. rewrite <- !app_assoc.
      apply Permutation_app_head, Permutation_app_head. rewrite !app_assoc. apply Permutation_app_tail. apply Permutation_app_comm. }
    destruct (assign_ok live v (Some (length (o_heap s))) (Owners (o_heap s ++ [Cell g 1]) (o_vars s) w') LV C1 S1) as (s2 & -> & _). cbn [bind]. eauto.
  - destruct (assign_ok live v None s LG C SK) as (s2 & -> & _). cbn [bind]. eauto.
  - destruct LG as [LD LS]. destruct (nth_error (o_vars s) src) as [p|] eqn:NP; [|apply nth_error_None in NP; lia].
    destruct (retain_ok live p s (nth_error_In _ _ NP) C SK) as (s1 & -> & R2 & R3 & R4 & _). cbn [bind].
    destruct (assign_ok live dst p s1) as (s2 & -> & _); auto; [now rewrite R4|]. cbn [bind]. eauto.
  - destruct (assign_ok live v None s LG C SK) as (s2 & -> & _). cbn [bind]. eauto.
  - destruct LG as ((j & PJ) & OK). destruct (deref_ok v j s PJ C) as (g & n & NE & -> & L & _).
    destruct (reconfigure_x_defined fails ans configs num OK g [] fuel (w_filters (o_world s))) as [e E]; [exact L|lia|].
    cbn [length app] in E. change (Z.of_nat 0) with 0 in E. rewrite E. destruct e as [[r log]|log]; eauto.
  - destruct LG as ((j & PJ) & I & F & N). destruct (deref_ok v j s PJ C) as (g & n & NE & -> & GO). cbn [bind].
    destruct (write_ok sendmmsg g index frames frames_len GO I F N) as (g2 & r2 & c2 & sent2 & -> & _). cbn [bind]. eauto.
  - destruct LG as ((j & PJ) & I & F & N). destruct (deref_ok v j s PJ C) as (g & n & NE & -> & GO). cbn [bind].
    destruct (read_ok res errno msgs g index out GO I F N) as (g2 & r2 & c2 & fr2 & -> & _). cbn [bind]. eauto.
  - destruct LG as ((j & PJ) & W & T). destruct (deref_ok v j s PJ C) as (g & n & NE & -> & GO). cbn [bind].
    destruct fails; [eauto|]. destruct (select_timeout P W ppoll g timeout ignore_write_available T) as (r & req & -> & _). cbn [bind]. eauto.
Qed.

(** ** Programs *)
Lemma program_inv : forall live n h s, NoDup live -> program live n h s -> counted None s /\ sockets live s /\ length (o_vars s) = n.
Proof.
  intros live n h s ND H. induction H as [|h s u fuel a s' H IH LG E].
  - split; [|split].
    + constructor; cbn [o_heap o_vars]; [intros [|i] c E; discriminate| |constructor].
      intros i [I|I]; [|discriminate]. apply repeat_spec in I. discriminate.
    + exists live, []. cbn. rewrite app_nil_r. auto.
    + apply repeat_length.
  - destruct IH as (C & S & L). destruct (use_steps live u s fuel a s' C S LG E) as (A & B & _ & D & _). split; [auto|]. split; [auto|]. congruence.
Qed.

Lemma pointed_count : forall s i, pointed_to s i = negb (uses (o_vars s) i =? 0)%nat.
Proof.
  intros s i. unfold pointed_to. induction (o_vars s) as [|p t IH]; [reflexivity|]. cbn [existsb count_occ]. rewrite IH.
  destruct (ptr_dec p (Some i)) as [-> | N].
  - rewrite Nat.eqb_refl. reflexivity.
  - destruct p as [j|]; [|reflexivity]. destruct (Nat.eqb_spec j i); [congruence|reflexivity].
Qed.

Lemma flat_map_nth : forall A (f : cell -> list A) (g : nat -> list A) h k, (forall i c, nth_error h i = Some c -> g (k + i)%nat = f c) ->
  flat_map f h = flat_map g (seq k (length h)).
Proof.
  intros A f g h. induction h as [|c h IH]; intros k E; [reflexivity|]. cbn [flat_map length seq]. f_equal.
  - rewrite <- (E 0%nat c eq_refl). now rewrite Nat.add_0_r.
  - apply IH. intros i c' I. rewrite <- (E (S i) c' I). f_equal. lia.
Qed.

Lemma held_eq : forall s, counted None s -> heap_held (o_heap s) = held s.
Proof.
  intros s C. unfold heap_held, held. apply flat_map_nth. intros i c E. cbn [Nat.add]. rewrite pointed_count. unfold held_cell, the_group. rewrite E.
  rewrite (ct_uses _ _ C i c E). unfold b2n. destruct (ptr_dec None (Some i)); [discriminate|]. rewrite Nat.add_0_r.
  destruct (uses (o_vars s) i =? 0)%nat; reflexivity.
Qed.

Lemma program_sockets : forall live n h s, NoDup live -> program live n h s ->
  exists now zeros, replay live (w_trace (o_world s)) = Some now /\ NoDup now /\ Forall (eq 0) zeros /\ Permutation now (live ++ zeros ++ held s).
Proof.
  intros live n h s ND H. destruct (program_inv live n h s ND H) as (C & (now & zeros & S) & _). exists now, zeros. now rewrite <- held_eq.
Qed.

Lemma program_counts : forall live n h s v i, NoDup live -> program live n h s -> points s v i ->
  exists c, nth_error (o_heap s) i = Some c /\ c_uses c = length (List.filter (fun p => match p with Some j => (j =? i)%nat | None => false end) (o_vars s)).
Proof.
  intros live n h s v i ND H P. destruct (program_inv live n h s ND H) as (C & _ & _). unfold points in P. apply nth_error_In in P.
  pose proof (ct_in _ _ C i (or_introl P)) as L. destruct (nth_error (o_heap s) i) as [c|] eqn:E; [|apply nth_error_None in E; lia].
  exists c. split; [auto|]. rewrite (ct_uses _ _ C i c E). unfold b2n. destruct (ptr_dec None (Some i)); [discriminate|]. rewrite Nat.add_0_r.
  clear. induction (o_vars s) as [|p t IH]; [reflexivity|]. cbn [count_occ List.filter]. destruct (ptr_dec p (Some i)) as [-> | N].
  - rewrite Nat.eqb_refl. cbn [length]. now rewrite IH.
  - destruct p as [j|]; [|exact IH]. destruct (Nat.eqb_spec j i); [congruence|exact IH].
Qed.

(** ** Independence *)
Lemma held_in : forall s i d, (i < length (o_heap s))%nat -> pointed_to s i = true -> In d (descriptors (the_group s i)) -> In d (held s).
Proof.
  intros s i d L P I. unfold held. apply in_flat_map. exists i. split; [apply in_seq; lia|]. now rewrite P.
Qed.

Lemma nodup_app_r : forall A (a b : list A), NoDup (a ++ b) -> NoDup b.
Proof. intros A a b N. induction a as [|x a IH]; [exact N|]. cbn in N. inversion N; auto. Qed.

Lemma nodup_flat_map : forall A (f : nat -> list A) l i j d, NoDup (flat_map f l) -> In i l -> In j l -> In d (f i) -> In d (f j) -> NoDup l -> i = j.
Proof.
  intros A f l i j d N. induction l as [|x l IH]; intros I J Di Dj NL; [contradiction|]. cbn [flat_map] in N.
  inversion NL as [|? ? NX NL']; subst.
  assert (D : forall d, In d (f x) -> ~ In d (flat_map f l)).
  { clear -N. intros d. induction (f x) as [|y t IH]; [contradiction|]. cbn in N. inversion N as [|? ? A1 A2]; subst. intros [->|Q] X.
    - apply A1. apply in_or_app. now right.
    - now apply IH. }
  destruct I as [->|I], J as [->|J]; auto.
  - exfalso. apply (D d Di). apply in_flat_map. eauto.
  - exfalso. apply (D d Dj). apply in_flat_map. eauto.
  - apply IH; auto. now apply nodup_app_r in N.
Qed.

Lemma use_filters : forall live n h s u fuel a s' i d, NoDup live -> program live n h s -> legal_use live u s -> do_use fuel u s = Some (Ret (a, s')) ->
  (i < length (o_heap s))%nat -> pointed_to s i = true -> ~ goes_through u s i -> In d (descriptors (the_group s i)) ->
  filters_of d (w_filters (o_world s')) = filters_of d (w_filters (o_world s)).
Proof.
  intros live n h s u fuel a s' i d ND H LG E L P NG I.
  destruct (program_inv live n h s ND H) as (C & SK & _). destruct (program_sockets live n h s ND H) as (now & zeros & R & N & Z & PM).
  assert (DN : In d now). { rewrite PM. apply in_or_app. right. apply in_or_app. right. eapply held_in; eauto. }
  assert (NH : NoDup (held s)) by (rewrite PM in N; now apply nodup_app_r, nodup_app_r in N).
  destruct u; cbn [do_use legal_use goes_through] in *.
  - destruct LG as (LV & OK & FR & LEN).
    destruct (start_x _ _ _ _ _ _ _ _) as [[[[[r [g|]] w']|[p w']]|]|] eqn:ST; try discriminate.
    + injection E as E. apply bind_ret_inv in E. destruct E as (s1 & A & E). assert (s1 = s') as -> by congruence.
      apply start_x_returned in ST; [|auto]. rewrite <- (start_filters_kept _ _ _ _ _ _ _ _ _ _ _ _ d OK FR R N DN ST).
      unfold assign in A. cbn [o_vars o_heap o_world] in A. destruct (nth_error (o_vars s) v) as [[k|]|]; [| |discriminate]; cbn [release o_heap o_vars o_world] in A.
      * destruct (nth_error _ k) as [[g0 [|m0]]|]; try discriminate. injection A as <-. cbn [o_world]. destruct (m0 =? 0)%nat; reflexivity.
      * injection A as <-. reflexivity.
    + apply start_x_returned in ST; [|auto]. assert (s' = Owners (o_heap s) (o_vars s) w') as -> by congruence. cbn [o_world].
      exact (start_filters_kept _ _ _ _ _ _ _ _ _ _ _ _ d OK FR R N DN ST).
    + assert (s' = Owners (o_heap s) (o_vars s) w') as -> by congruence. cbn [o_world].
      destruct (start_x_threw _ _ _ _ _ _ _ _ _ _ _ _ OK FR R N ST) as (_ & _ & F). auto.
  - destruct (assign_ok live v None s LG C SK) as (s2 & B1 & B2 & B3 & B4 & B5 & B6). rewrite B1 in E. cbn [bind] in E. assert (s2 = s') as -> by congruence. now rewrite B6.
  - destruct LG as [LD LS]. destruct (nth_error (o_vars s) src) as [p|] eqn:NP; [|discriminate].
    destruct (retain_ok live p s (nth_error_In _ _ NP) C SK) as (s1 & R1 & R2 & R3 & R4 & R5 & R6). rewrite R1 in E. cbn [bind] in E.
    destruct (assign_ok live dst p s1) as (s2 & B1 & B2 & B3 & B4 & B5 & B6); auto; [now rewrite R4|]. rewrite B1 in E. cbn [bind] in E.
    assert (s2 = s') as -> by congruence. now rewrite B6, R6.
  - destruct (assign_ok live v None s LG C SK) as (s2 & B1 & B2 & B3 & B4 & B5 & B6). rewrite B1 in E. cbn [bind] in E. assert (s2 = s') as -> by congruence. now rewrite B6.
  - destruct LG as ((j & PJ) & OK). destruct (deref_ok v j s PJ C) as (g & m0 & NE & D & GO). rewrite D in E.
    destruct (reconfigure_loop_x _ _ _ _ _ _ _ _ _) as [[e|]|] eqn:RC; try discriminate.
    apply reconfigure_x_adds in RC. destruct RC as (add & Q1 & Q2).
    assert (Q : w_filters (o_world s') = add ++ w_filters (o_world s)).
    { destruct e as [[r l]|l]; assert (s' = Owners (o_heap s) (o_vars s) (World (w_trace (o_world s)) l)) as -> by congruence; exact Q1. }
    rewrite Q. apply filters_of_app. eapply Forall_impl; [|exact Q2]. intros [d' fs] X Y. cbn [fst] in *. subst d'.
    assert (IJ : i <> j) by (intros ->; auto). apply IJ.
    assert (LJ : (j < length (o_heap s))%nat) by (apply nth_error_Some; congruence).
    assert (PT : pointed_to s j = true).
    { rewrite pointed_count. unfold points in PJ. apply nth_error_In in PJ. apply (count_occ_In ptr_dec) in PJ. destruct (Nat.eqb_spec (uses (o_vars s) j) 0); [lia|reflexivity]. }
    apply (nodup_flat_map _ _ _ i j d NH); [apply in_seq; lia|apply in_seq; lia| | |apply seq_NoDup].
    + now rewrite P.
    + rewrite PT. unfold the_group. rewrite NE. exact X.
  - destruct LG as ((j & PJ) & LG). destruct (deref_ok v j s PJ C) as (g & n0 & NE & D & GO). rewrite D in E. cbn [bind] in E.
    injection E as E. apply bind_ret_inv in E. destruct E as ([[[g' r] c] sent] & W & E). cbn in E. assert (s' = store j g' s) as -> by congruence.
    unfold store. rewrite NE. reflexivity.
  - destruct LG as ((j & PJ) & LG). destruct (deref_ok v j s PJ C) as (g & n0 & NE & D & GO). rewrite D in E. cbn [bind] in E.
    injection E as E. apply bind_ret_inv in E. destruct E as ([[[g' r] c] sent] & W & E). cbn in E. assert (s' = store j g' s) as -> by congruence.
    unfold store. rewrite NE. reflexivity.
  - assert (s' = s) as ->; [|reflexivity]. injection E as E. apply bind_ret_inv in E. destruct E as ([i' g] & _ & E).
    destruct fails; [congruence|]. apply bind_ret_inv in E. destruct E as ([r req] & _ & E). congruence.
Qed.

Lemma points_pointed : forall s v i, points s v i -> pointed_to s i = true.
Proof.
  intros s v i P. rewrite pointed_count. unfold points in P. apply nth_error_In in P. apply (count_occ_In ptr_dec) in P.
  destruct (Nat.eqb_spec (uses (o_vars s) i) 0); [lia|reflexivity].
Qed.

Lemma independent : forall live n h s u fuel a s' v i, NoDup live -> program live n h s -> legal_use live u s -> do_use fuel u s = Some (Ret (a, s')) ->
  points s v i -> ~ sets u v -> ~ goes_through u s i ->
  points s' v i /\ the_group s' i = the_group s i /\
  forall d, In d (descriptors (the_group s i)) -> filters_of d (w_filters (o_world s')) = filters_of d (w_filters (o_world s)).
Proof.
  intros live n h s u fuel a s' v i ND H LG E P NS NG. destruct (program_inv live n h s ND H) as (C & SK & _).
  assert (L : (i < length (o_heap s))%nat) by (apply (ct_in _ _ C); left; unfold points in P; eapply nth_error_In; eauto).
  destruct (use_steps live u s fuel a s' C SK LG E) as (_ & _ & G & _ & V). split; [unfold points; rewrite V; auto|]. split; [now apply G|].
  intros d I. eapply (use_filters live n h s u fuel a s' i d); eauto. eapply points_pointed; eauto.
Qed.

(** ** One pointer *)
Lemma start_none : forall fuel m configs num kernel out w,
  startInterfaceGroup fuel m configs num kernel out w =
  match startInterfaceGroup fuel m configs num kernel None w with
  | Some (Ret (r, None, w')) => Some (Ret (r, out, w'))
  | Some (Ret (r, Some g, w')) => Some (Ret (r, Some g, World (destroy_ptr out (w_trace w')) (w_filters w')))
  | Some UB => Some UB | None => None end.
Proof.
  intros fuel m configs num kernel out w. unfold startInterfaceGroup. destruct (start_loop _ _ _ _ _ _ _ _ _) as [[[[|x g] w']|]|]; reflexivity.
Qed.

Lemma one_vars : forall s, length (o_vars s) = 1%nat -> o_vars s = [None] \/ exists i, o_vars s = [Some i].
Proof. intros s L. destruct (o_vars s) as [|[i|] [|p t]]; cbn in L; try lia; eauto. Qed.

Lemma one_cell : forall s i, counted None s -> o_vars s = [Some i] -> exists g, nth_error (o_heap s) i = Some (Cell g 1).
Proof.
  intros s i C V. assert (I : In (Some i) (o_vars s)) by (rewrite V; now left). pose proof (ct_in _ _ C i (or_introl I)) as L.
  destruct (nth_error (o_heap s) i) as [[g n]|] eqn:E; [|apply nth_error_None in E; lia].
  pose proof (ct_uses _ _ C i _ E) as U. cbn [c_uses] in U. rewrite V in U. cbn [count_occ] in U. unfold b2n in U.
  destruct (ptr_dec (Some i) (Some i)); [|congruence]. destruct (ptr_dec None (Some i)); [discriminate|]. subst n. eauto.
Qed.

(** The only pointer gets a new value. *)
Lemma assign_one : forall p heap vars w, (vars = [None] \/ exists i g, vars = [Some i] /\ nth_error heap i = Some (Cell g 1)) ->
  exists s', assign 0 p (Owners heap vars w) = Ret s' /\ o_vars s' = [p] /\ map c_group (o_heap s') = map c_group heap /\
    o_world s' = World (destroy_ptr (cl_group (as_client (Owners heap vars w))) (w_trace w)) (w_filters w).
Proof.
  intros p heap vars w [-> | (i & g & -> & E)]; unfold assign, as_client; cbn [cl_group o_vars nth_error replace_nth release destroy_ptr o_heap o_world].
  - eexists. split; [reflexivity|]. cbn [o_vars o_heap o_world]. destruct w. auto.
  - rewrite E. cbn [Nat.eqb]. eexists. split; [reflexivity|]. cbn [o_vars o_heap o_world]. split; [reflexivity|]. unfold the_group. cbn [o_heap]. rewrite E.
    cbn [c_group]. split; [|reflexivity].
    destruct (nth_error_split _ _ E) as (h1 & h2 & H & LH). rewrite H. rewrite (replace_mid _ i h1 h2 _ _ LH), !map_app. reflexivity.
Qed.

Lemma one_pointer : forall live h s m o fuel, NoDup live -> program live 1 h s ->
  match perform fuel m o (as_client s) with
  | None => do_use fuel (as_use m o) s = None
  | Some UB => do_use fuel (as_use m o) s = Some UB
  | Some (Ret (r, c)) => exists s', do_use fuel (as_use m o) s = Some (Ret (as_answer r, s')) /\ as_client s' = c
  end.
Proof.
  intros live h s m o fuel ND H. destruct (program_inv live 1 h s ND H) as (C & SK & L).
  assert (ONE : o_vars s = [None] \/ exists i g, o_vars s = [Some i] /\ nth_error (o_heap s) i = Some (Cell g 1)).
  { destruct (one_vars s L) as [V|[i V]]; [auto|]. right. destruct (one_cell s i C V) as [g E]. eauto. }
  clear C SK L H. destruct s as [heap vars w]. cbn [o_vars o_heap] in ONE.
  destruct o; cbn [perform as_use do_use o_world o_heap o_vars].
  - rewrite start_x_enough by reflexivity. rewrite start_none. cbn [cl_world as_client o_world].
    destruct (startInterfaceGroup _ _ _ _ _ None _) as [[[[r [g|]] w']|]|] eqn:ST; auto.
    + destruct (assign_one (Some (length heap)) (heap ++ [Cell g 1]) vars w') as (s' & A & V & G & W).
      { destruct ONE as [-> | (i & g0 & -> & E)]; [auto|]. right. exists i, g0. split; [auto|]. rewrite nth_error_app1; auto. apply nth_error_Some. congruence. }
      rewrite A. cbn [bind]. exists s'. split; [reflexivity|]. unfold as_client at 1. rewrite V, W. f_equal.
      * f_equal. unfold the_group. apply (f_equal (fun l => nth_error l (length heap))) in G. rewrite !nth_error_map in G.
        rewrite nth_error_app2, Nat.sub_diag in G by lia. cbn in G. destruct (nth_error (o_heap s') (length heap)); cbn in G; congruence.
      * f_equal. f_equal. unfold as_client. cbn [cl_group o_vars]. destruct ONE as [-> | (i & g0 & -> & E)]; [reflexivity|].
        unfold the_group. cbn [o_heap]. rewrite nth_error_app1; [reflexivity|]. apply nth_error_Some. congruence.
    + eexists. split; [reflexivity|]. reflexivity.
  - cbn [stopInterfaceGroup]. destruct (assign_one None heap vars w ONE) as (s' & -> & V & _ & W). cbn [bind]. exists s'. split; [reflexivity|].
    unfold as_client at 1. rewrite V, W. reflexivity.
  - unfold as_client. cbn [cl_group cl_world o_vars]. destruct ONE as [-> | (i & g & -> & E)]; cbn [nth_error]; unfold deref; cbn [o_vars o_heap nth_error]; [reflexivity|].
    rewrite E. unfold the_group. cbn [o_heap o_world]. rewrite E. cbn [c_group]. rewrite reconfigure_x_enough by reflexivity. unfold reconfigureFilters.
    destruct (reconfigure_loop _ _ _ _ _ _ _ _) as [[[r log]|]|]; auto. eexists. split; [reflexivity|]. cbn [o_vars o_world o_heap]. rewrite E. reflexivity.
  - unfold as_client. cbn [cl_group cl_world o_vars]. destruct ONE as [-> | (i & g & -> & E)]; unfold deref; cbn [o_vars o_heap nth_error bind]; [reflexivity|].
    rewrite E. unfold the_group. cbn [o_heap o_world bind]. rewrite E. cbn [c_group].
    destruct (group_write _ _ _ _ _ _) as [[[[g' r] c] sent]|]; cbn [bind]; [|reflexivity].
    eexists. split; [reflexivity|]. unfold store. cbn [o_heap]. rewrite E. cbn [o_vars o_world o_heap]. rewrite nth_error_replace_nth, Nat.eqb_refl, E. reflexivity.
  - unfold as_client. cbn [cl_group cl_world o_vars]. destruct ONE as [-> | (i & g & -> & E)]; unfold deref; cbn [o_vars o_heap nth_error bind]; [reflexivity|].
    rewrite E. unfold the_group. cbn [o_heap o_world bind]. rewrite E. cbn [c_group].
    destruct (group_read _ _ _ _ _ _ _) as [[[[g' r] c] fr]|]; cbn [bind]; [|reflexivity].
    eexists. split; [reflexivity|]. unfold store. cbn [o_heap]. rewrite E. cbn [o_vars o_world o_heap]. rewrite nth_error_replace_nth, Nat.eqb_refl, E. reflexivity.
Qed.

(** ** What each call does *)
Lemma use_does : forall live u s fuel a s', counted None s -> sockets live s -> legal_use live u s ->
  do_use fuel u s = Some (Ret (a, s')) -> does fuel u s a s'.
Proof.
  intros live u s fuel a s' C SK LG E. destruct u; cbn [do_use legal_use] in *.
  - destruct LG as (LV & OK & FR & LEN).
    destruct (start_x _ _ _ _ _ _ _ _) as [[[[[r [g|]] w']|[p w']]|]|] eqn:ST; try discriminate.
    + injection E as E. apply bind_ret_inv in E. destruct E as (s1 & A & E). assert (s1 = s') as -> by congruence. assert (a = Result_ r) as -> by congruence.
      apply start_x_returned in ST; [|auto]. cbn [does]. exists (Some g), w'. split; [exact ST|]. exists (length (o_heap s)).
      pose proof (started_group_ok _ _ _ _ _ _ _ _ _ OK LEN ST) as GO.
      destruct SK as (now & zeros & R & ND & Z & P).
      destruct (start_sockets fuel m configs num kernel None (o_world s) live now now r (Some g) w' OK FR R ND) as (n' & z' & A1 & A2 & A3 & A4); auto.
      { cbn [owned]. now rewrite app_nil_r. }
      destruct (started_ok live (o_heap s) (o_vars s) (o_world s) g GO) with (w' := w') as [C1 S1].
      { destruct s; exact C. }
      { exists n', (zeros ++ z'). split; [auto|]. split; [auto|]. split; [apply Forall_app; auto|]. rewrite A4, P. cbn [owned]. rewrite <- !app_assoc.
        apply Permutation_app_head, Permutation_app_head. rewrite !app_assoc. apply Permutation_app_tail. apply Permutation_app_comm. }
      destruct (assign_ok live v (Some (length (o_heap s))) (Owners (o_heap s ++ [Cell g 1]) (o_vars s) w') LV C1 S1) as (s2 & B1 & B2 & B3 & B4 & B5 & B6).
      rewrite B1 in A. injection A as ->. cbn [o_vars o_heap] in *. split; [auto|]. split.
      * unfold points. rewrite B4, nth_error_replace_nth, Nat.eqb_refl. destruct (nth_error (o_vars s) v) eqn:N; [reflexivity|]. apply nth_error_None in N. lia.
      * unfold the_group. apply (f_equal (fun l => nth_error l (length (o_heap s)))) in B5. rewrite !nth_error_map in B5.
        rewrite nth_error_app2, Nat.sub_diag in B5 by lia. cbn in B5. destruct (nth_error (o_heap s') (length (o_heap s))); cbn in B5; congruence.
    + apply start_x_returned in ST; [|auto]. assert (s' = Owners (o_heap s) (o_vars s) w') as -> by congruence. assert (a = Result_ r) as -> by congruence.
      cbn [does]. exists None, w'. auto.
    + assert (s' = Owners (o_heap s) (o_vars s) w') as -> by congruence. assert (a = OutOfMem) as -> by congruence. reflexivity.
  - destruct (assign_ok live v None s LG C SK) as (s2 & B1 & B2 & B3 & B4 & B5 & B6). rewrite B1 in E. cbn [bind] in E. assert (s2 = s') as -> by congruence.
    assert (a = Result_ Success) as -> by congruence. cbn [does]. split; [reflexivity|].
    rewrite B4, nth_error_replace_nth, Nat.eqb_refl. destruct (nth_error (o_vars s) v) eqn:N; [reflexivity|]. apply nth_error_None in N. lia.
  - destruct LG as [LD LS]. destruct (nth_error (o_vars s) src) as [p|] eqn:NP; [|discriminate].
    destruct (retain_ok live p s (nth_error_In _ _ NP) C SK) as (s1 & R1 & R2 & R3 & R4 & R5 & R6). rewrite R1 in E. cbn [bind] in E.
    destruct (assign_ok live dst p s1) as (s2 & B1 & B2 & B3 & B4 & B5 & B6); auto; [now rewrite R4|]. rewrite B1 in E. cbn [bind] in E. assert (s2 = s') as -> by congruence.
    assert (a = Done) as -> by congruence. cbn [does]. rewrite B4, R4, nth_error_replace_nth, Nat.eqb_refl, NP.
    destruct (nth_error (o_vars s) dst) eqn:N; [reflexivity|]. apply nth_error_None in N. lia.
  - destruct (assign_ok live v None s LG C SK) as (s2 & B1 & B2 & B3 & B4 & B5 & B6). rewrite B1 in E. cbn [bind] in E. assert (s2 = s') as -> by congruence.
    assert (a = Done) as -> by congruence. cbn [does].
    rewrite B4, nth_error_replace_nth, Nat.eqb_refl. destruct (nth_error (o_vars s) v) eqn:N; [reflexivity|]. apply nth_error_None in N. lia.
  - destruct LG as ((j & PJ) & OK). destruct (deref_ok v j s PJ C) as (g & n & NE & D & GO). rewrite D in E.
    assert (TG : the_group s j = g) by (unfold the_group; now rewrite NE).
    destruct (reconfigure_loop_x _ _ _ _ _ _ _ _ _) as [[[[r log]|log]|]|] eqn:RC; try discriminate.
    + assert (s' = Owners (o_heap s) (o_vars s) (World (w_trace (o_world s)) log)) as -> by congruence. assert (a = Result_ r) as -> by congruence.
      cbn [does]. exists j. split; [exact PJ|]. split; [reflexivity|]. rewrite TG. cbn [o_world w_filters]. eapply reconfigure_x_returned; eauto.
    + assert (s' = Owners (o_heap s) (o_vars s) (World (w_trace (o_world s)) log)) as -> by congruence. assert (a = OutOfMem) as -> by congruence.
      cbn [does]. exists j. split; [exact PJ|]. reflexivity.
  - destruct LG as ((j & PJ) & LG). destruct (deref_ok v j s PJ C) as (g & n & NE & D & GO). rewrite D in E. cbn [bind] in E.
    assert (TG : the_group s j = g) by (unfold the_group; now rewrite NE).
    injection E as E. apply bind_ret_inv in E. destruct E as ([[[g' r] c] sent] & W & E). cbn in E. assert (s' = store j g' s) as -> by congruence.
    assert (a = Wrote_ r c sent) as -> by congruence. cbn [does]. exists j. split; [exact PJ|]. rewrite TG, W.
    unfold store, the_group. rewrite NE. cbn [o_heap]. rewrite nth_error_replace_nth, Nat.eqb_refl, NE. reflexivity.
  - destruct LG as ((j & PJ) & LG). destruct (deref_ok v j s PJ C) as (g & n & NE & D & GO). rewrite D in E. cbn [bind] in E.
    assert (TG : the_group s j = g) by (unfold the_group; now rewrite NE).
    injection E as E. apply bind_ret_inv in E. destruct E as ([[[g' r] c] fr] & W & E). cbn in E. assert (s' = store j g' s) as -> by congruence.
    assert (a = WasRead_ r c fr) as -> by congruence. cbn [does]. exists j. split; [exact PJ|]. rewrite TG, W.
    unfold store, the_group. rewrite NE. cbn [o_heap]. rewrite nth_error_replace_nth, Nat.eqb_refl, NE. reflexivity.
  - destruct LG as ((j & PJ) & LG). destruct (deref_ok v j s PJ C) as (g & n & NE & D & GO). rewrite D in E. cbn [bind] in E.
    assert (TG : the_group s j = g) by (unfold the_group; now rewrite NE).
    injection E as E. destruct fails.
    + assert (s' = s) as -> by congruence. assert (a = OutOfMem) as -> by congruence. reflexivity.
    + apply bind_ret_inv in E. destruct E as ([r req] & S & E). assert (s' = s) as -> by congruence.
      assert (a = Selected_ r req) as -> by congruence. cbn [does]. exists j. rewrite TG. auto.
Qed.
