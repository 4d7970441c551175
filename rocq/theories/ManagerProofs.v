(** Proofs about starting and stopping interface groups. *)
From Coq Require Import ZArith Bool String List Lia Permutation Sorted.
From Verif Require Import Outcome ResultModel CanFrameModel SocketCanModel SocketCanProofs GroupModel GroupSpec GroupProofs
  ManagerModel ManagerSpec.
Import ListNotations.
Open Scope Z_scope.

Lemma configure_form : forall ans fd configs num, configs_ok configs num ->
  exists r add, (r = Success \/ isFailure r = true) /\
    forall lg, configureFilters ans fd configs num lg = Ret (r, add ++ lg).
Proof.
  intros ans fd configs num OK. destruct num as [|n].
  - destruct (ans [] 0 =? 0) eqn:E.
    + exists Success, [(fd, [])]. split; auto. intros. rewrite configure_zero, E. reflexivity.
    + exists UnknownInternalError, []. split; auto. intros. rewrite configure_zero, E. reflexivity.
  - destruct configs as [cs|].
    + cbn [configs_ok] in OK. destruct (ans (map kconv (firstn (S n) cs)) ((8 * Z.of_nat (S n)) mod 2 ^ 32) =? 0) eqn:E.
      * eexists Success, [_]. split; auto. intros. rewrite configure_eq by lia. cbn zeta. rewrite E. reflexivity.
      * exists UnknownInternalError, []. split; auto. intros. rewrite configure_eq by lia. cbn zeta. rewrite E. reflexivity.
    + cbn [configs_ok] in OK. exists BadArgument, []. split; auto. intros lg.
      destruct (configure_null ans fd (S n) lg) as [H _]; [lia|]. now rewrite (proj2 H OK).
Qed.

(** ** One attempt *)

Lemma open_cases : forall name c o a tr,
  let s := a_socket a in
  (s < 0 /\ openSocket name c o a tr = (s, tr)) \/
  (0 <= s /\ openSocket name c o a tr = (-1, (tr ++ [Opened s]) ++ [Closed s]) /\
   ~ ((c = true -> a_canfd a = 0) /\ (o = true -> a_own a = 0) /\ Z.of_nat (String.length name) < 16 /\
      0 <= a_ioctl a /\ 0 <= a_ifindex a /\ 0 <= a_bind a /\ a_error a = 0)) \/
  (0 <= s /\ openSocket name c o a tr = (s, tr ++ [Opened s]) /\
   ((c = true -> a_canfd a = 0) /\ (o = true -> a_own a = 0) /\ Z.of_nat (String.length name) < 16 /\
      0 <= a_ioctl a /\ 0 <= a_ifindex a /\ 0 <= a_bind a /\ a_error a = 0)).
Proof.
  intros name c o a tr s. unfold openSocket. fold s. destruct (Z.ltb_spec s 0); [left; auto|right].
  destruct (c && negb (a_canfd a =? 0)) eqn:E1.
  { left. split; [lia|]. split; [reflexivity|]. intros (H1 & _). apply andb_true_iff in E1. destruct E1 as [-> E1].
    rewrite H1 in E1 by auto. discriminate. }
  destruct (o && negb (a_own a =? 0)) eqn:E2.
  { left. split; [lia|]. split; [reflexivity|]. intros (_ & H1 & _). apply andb_true_iff in E2. destruct E2 as [-> E2].
    rewrite H1 in E2 by auto. discriminate. }
  unfold IFNAMSIZ. destruct (Z.leb_spec 16 (Z.of_nat (String.length name))).
  { left. split; [lia|]. split; [reflexivity|]. intros (_ & _ & ? & _). lia. }
  destruct (Z.ltb_spec (a_ioctl a) 0); cbn [orb].
  { left. split; [lia|]. split; [reflexivity|]. intros (_ & _ & _ & ? & _). lia. }
  destruct (Z.ltb_spec (a_ifindex a) 0).
  { left. split; [lia|]. split; [reflexivity|]. intros (_ & _ & _ & _ & ? & _). lia. }
  destruct (Z.ltb_spec (a_bind a) 0).
  { left. split; [lia|]. split; [reflexivity|]. intros (_ & _ & _ & _ & _ & ? & _). lia. }
  destruct (Z.eqb_spec (a_error a) 0); cbn [negb].
  2:{ left. split; [lia|]. split; [reflexivity|]. intros (_ & _ & _ & _ & _ & _ & ?). contradiction. }
  right. split; [lia|]. split; [reflexivity|]. repeat split; auto.
  - intros ->. cbn [andb] in E1. apply negb_false_iff, Z.eqb_eq in E1. exact E1.
  - intros ->. cbn [andb] in E2. apply negb_false_iff, Z.eqb_eq in E2. exact E2.
Qed.

(** What an attempt leaves behind: nothing, a closed socket, an open socket 0, or an interface. *)
Lemma create_cases : forall m i name configs num a w, configs_ok configs num ->
  exists r o w', createInterface m i name configs num a w = Ret (r, o, w') /\
    ((o = None /\ isFailure r = true /\ ~ comes_up m configs num name a /\
      (w_trace w' = w_trace w \/ 0 <= a_socket a /\ w_trace w' = (w_trace w ++ [Opened (a_socket a)]) ++ [Closed (a_socket a)] \/
       a_socket a = 0 /\ w_trace w' = w_trace w ++ [Opened 0])) \/
     (o = Some (iface_make i name (a_socket a)) /\ r = Success /\ comes_up m configs num name a /\
      w_trace w' = w_trace w ++ [Opened (a_socket a)])).
Proof.
  intros m i name configs num a w OK. unfold createInterface.
  destruct (open_cases name (m_canfd m) (m_own m) a (w_trace w)) as [[S E]|[(S & E & N)|(S & E & Y)]]; rewrite E.
  - destruct (Z.leb_spec (a_socket a) 0); [|lia]. do 3 eexists. split; [reflexivity|]. left. repeat split; auto.
    intros (Q & _). lia.
  - change (-1 <=? 0) with true. do 3 eexists. split; [reflexivity|]. left. repeat split; auto.
    intros (_ & Q1 & Q2 & Q3 & Q4 & Q5 & Q6 & Q7 & _). apply N. auto 10.
  - destruct (Z.leb_spec (a_socket a) 0).
    + assert (Z0 : a_socket a = 0) by lia. do 3 eexists. split; [reflexivity|]. left. repeat split; auto.
      * intros (Q & _). lia.
      * cbn [w_trace]. rewrite Z0. auto.
    + destruct (configure_form (a_filter a) (a_socket a) configs num OK) as (r & add & R & F). rewrite F. cbn [bind].
      destruct R as [->|R].
      * change (result_not Success) with false. cbn iota. do 3 eexists. split; [reflexivity|]. right. repeat split; auto; try apply Y.
        exists (add ++ []). apply F.
      * unfold isFailure in R. rewrite R. do 3 eexists. split; [reflexivity|]. left. repeat split; auto.
        intros (_ & _ & _ & _ & _ & _ & _ & _ & log & Q). rewrite F in Q. injection Q as -> _. discriminate.
Qed.

(** ** The loop *)

Lemma start_loop_spec : forall m configs num kernel, configs_ok configs num -> (length (m_required m) <= 255)%nat ->
  forall todo done fuel acc w, m_required m = done ++ todo -> (length todo < fuel)%nat ->
  exists ans g w',
    start_loop fuel (Z.of_nat (length done)) (length done) m configs num kernel acc w = Some (Ret (acc ++ g, w')) /\
    length ans = length todo /\
    (forall t a, nth_error ans t = Some a -> answered_during kernel (length done + t)%nat (w_trace w') a) /\
    (forall t name a, nth_error todo t = Some name -> nth_error ans t = Some a ->
       (comes_up m configs num name a <-> In (iface_make (Z.of_nat (length done + t)) name (a_socket a)) g)) /\
    (forall s, In s g -> exists t name a, nth_error todo t = Some name /\ nth_error ans t = Some a /\
       s = iface_make (Z.of_nat (length done + t)) name (a_socket a)) /\
    StronglySorted (fun s s' => if_index s < if_index s') g /\ (exists more, w_trace w' = w_trace w ++ more).
Proof.
  intros m configs num kernel OK LEN. induction todo as [|name todo IH]; intros done fuel acc w E F.
  - destruct fuel; [lia|]. cbn [start_loop]. rewrite E, app_nil_r, Z.ltb_irrefl. exists [], [], w.
    rewrite app_nil_r. split; [reflexivity|]. split; [reflexivity|]. split; [|split; [|split; [|split; [constructor|exists []; now rewrite app_nil_r]]]].
    + intros [|t] a H; discriminate.
    + intros [|t] n a H; discriminate.
    + intros s [].
  - destruct fuel as [|k]; [cbn [length] in F; lia|]. cbn [start_loop].
    assert (LL : length (m_required m) = (length done + S (length todo))%nat) by (rewrite E, app_length; reflexivity).
    destruct (Z.ltb_spec (Z.of_nat (length done)) (Z.of_nat (length (m_required m)))); [|lia].
    assert (NE : nth_error (m_required m) (Z.to_nat (Z.of_nat (length done))) = Some name).
    { rewrite Nat2Z.id, E. rewrite nth_error_app2, Nat.sub_diag by lia. reflexivity. }
    rewrite NE.
    set (a := kernel (length done) (w_trace w)).
    destruct (create_cases m (Z.of_nat (length done)) name configs num a w OK) as (r & o & w1 & C & D). rewrite C.
    rewrite Z.mod_small by lia.
    replace (Z.of_nat (length done) + 1) with (Z.of_nat (length (done ++ [name]))) by (rewrite app_length; cbn [length]; lia).
    replace (S (length done)) with (length (done ++ [name])) by (rewrite app_length; cbn [length]; lia).
    match goal with |- context [start_loop _ _ _ _ _ _ _ ?x _] => set (acc' := x) end.
    destruct (IH (done ++ [name]) k acc' w1) as (ans & g & w' & L & A1 & A2 & A3 & A4 & A5 & A6);
      [rewrite <- app_assoc; exact E|cbn [length] in F; lia|].
    assert (IX : forall t, (length (done ++ [name]) + t = length done + S t)%nat) by (intros; rewrite app_length; cbn [length]; lia).
    assert (HI : forall t' name' a', iface_make (Z.of_nat (length done + S t')) name' a' <> iface_make (Z.of_nat (length done)) name (a_socket a)).
    { intros t' n' a' Q. apply (f_equal if_index) in Q. cbn [if_index iface_make] in Q. lia. }
    assert (T1 : exists more, w_trace w1 = w_trace w ++ more).
    { destruct D as [(_ & _ & _ & [T|[[_ T]|[_ T]]])|(_ & _ & _ & T)]; rewrite T, <- ?app_assoc; eauto. exists []. now rewrite app_nil_r. }
    assert (T2 : exists more, w_trace w' = w_trace w ++ more).
    { destruct T1 as [m1 T1], A6 as [m2 A6]. rewrite A6, T1, <- app_assoc. eauto. }
    destruct D as [(-> & R & NC & _)|(-> & -> & CU & _)].
    + exists (a :: ans), g, w'. split; [rewrite L; reflexivity|]. split; [cbn [length]; lia|]. split; [|split; [|split; [|split]]]; auto.
      * intros [|t] x X; cbn [nth_error] in X.
        -- injection X as <-. destruct T2 as [more T2]. exists (w_trace w), more. rewrite Nat.add_0_r. auto.
        -- rewrite <- IX. now apply A2.
      * intros [|t] n' x X1 X2; cbn [nth_error] in X1, X2.
        -- injection X1 as <-. injection X2 as <-. split; [contradiction|]. intros I. exfalso.
           destruct (A4 _ I) as (t' & n' & a' & _ & _ & Q). rewrite IX, Nat.add_0_r in Q. symmetry in Q. now apply HI in Q.
        -- rewrite <- IX. now apply A3.
      * intros s I. destruct (A4 _ I) as (t' & n' & a' & Q1 & Q2 & Q). exists (S t'), n', a'. rewrite <- IX. auto.
    + exists (a :: ans), (iface_make (Z.of_nat (length done)) name (a_socket a) :: g), w'.
      split; [|split; [cbn [length]; lia|split; [|split; [|split; [|split; [|exact T2]]]]]].
      * rewrite L. unfold acc'. change (negb (result_not Success)) with true. cbn iota. rewrite <- app_assoc. reflexivity.
      * intros [|t] x X; cbn [nth_error] in X.
        -- injection X as <-. destruct T2 as [more T2]. exists (w_trace w), more. rewrite Nat.add_0_r. auto.
        -- rewrite <- IX. now apply A2.
      * intros [|t] n' x X1 X2; cbn [nth_error] in X1, X2.
        -- injection X1 as <-. injection X2 as <-. rewrite Nat.add_0_r. split; auto. intros _. now left.
        -- rewrite <- IX. rewrite (A3 t n' x X1 X2). split; [now right|]. intros [Q|Q]; auto. exfalso.
           rewrite IX in Q. symmetry in Q. now apply HI in Q.
      * intros s [<-|I].
        -- exists 0%nat, name, a. rewrite Nat.add_0_r. auto.
        -- destruct (A4 _ I) as (t' & n' & a' & Q1 & Q2 & Q). exists (S t'), n', a'. rewrite <- IX. auto.
      * constructor; auto. apply Forall_forall. intros s I. destruct (A4 _ I) as (t' & n' & a' & _ & _ & ->).
        rewrite IX. cbn [if_index iface_make]. lia.
Qed.

(** ** Descriptors *)

Lemma replay_app : forall tr1 tr2 live, replay live (tr1 ++ tr2) = match replay live tr1 with Some l => replay l tr2 | None => None end.
Proof.
  induction tr1 as [|[d|d] tr1 IH]; intros tr2 live; cbn [app replay]; [reflexivity| |]; destruct (existsb _ _); auto.
Qed.

Lemma existsb_In : forall d l, existsb (Z.eqb d) l = true <-> In d l.
Proof.
  intros. rewrite existsb_exists. split; [intros [x [I E]]; apply Z.eqb_eq in E; now subst|].
  intros I. exists d. split; auto. apply Z.eqb_refl.
Qed.
Lemma existsb_not_In : forall d l, ~ In d l -> existsb (Z.eqb d) l = false.
Proof. intros. apply not_true_iff_false. now rewrite existsb_In. Qed.

Lemma remove_perm : forall d l, NoDup l -> In d l -> Permutation l (d :: remove Z.eq_dec d l).
Proof.
  induction l as [|x l IH]; intros ND I; [destruct I|]. inversion ND; subst. cbn [remove]. destruct (Z.eq_dec d x) as [->|N].
  - now rewrite notin_remove.
  - destruct I as [->|I]; [contradiction|]. rewrite perm_swap. apply perm_skip. auto.
Qed.

Lemma NoDup_remove_all : forall d (l : list Z), NoDup l -> NoDup (remove Z.eq_dec d l).
Proof.
  induction l as [|x l IH]; intros ND; [constructor|]. inversion ND; subst. cbn [remove]. destruct (Z.eq_dec d x); auto.
  constructor; auto. intros I. apply in_remove in I. tauto.
Qed.

(** Closing open descriptors. *)
Lemma replay_close : forall ds live rest, NoDup live -> Permutation live (rest ++ ds) ->
  exists live', replay live (map Closed ds) = Some live' /\ Permutation live' rest /\ NoDup live'.
Proof.
  induction ds as [|d ds IH]; intros live rest ND P.
  - exists live. rewrite app_nil_r in P. auto.
  - cbn [map replay]. assert (I : In d live) by (rewrite P; apply in_elt). rewrite (proj2 (existsb_In d live) I).
    apply IH; [now apply NoDup_remove_all|]. apply (Permutation_cons_inv (a := d)).
    rewrite <- remove_perm by auto. rewrite P. symmetry. apply Permutation_middle.
Qed.

Lemma start_loop_live : forall m configs num kernel live0, configs_ok configs num -> fresh_descriptors live0 kernel ->
  forall fuel i t acc w live other leaked acc' w',
  replay live0 (w_trace w) = Some live -> NoDup live ->
  Permutation live (other ++ leaked ++ map getSocketDescriptor acc) ->
  start_loop fuel i t m configs num kernel acc w = Some (Ret (acc', w')) ->
  exists live' zeros, replay live0 (w_trace w') = Some live' /\ NoDup live' /\ Forall (eq 0) zeros /\
    Permutation live' (other ++ (zeros ++ leaked) ++ map getSocketDescriptor acc').
Proof.
  intros m configs num kernel live0 OK FR. induction fuel as [|k IH]; intros i t acc w live other leaked acc' w' R ND P E; [discriminate|].
  cbn [start_loop] in E. destruct (_ <? _).
  2:{ injection E as <- <-. exists live, []. auto. }
  destruct (nth_error _ _) as [name|]; [|discriminate].
  set (a := kernel t (w_trace w)) in *.
  destruct (create_cases m i name configs num a w OK) as (r & o & w1 & C & D). rewrite C in E.
  assert (NI : 0 <= a_socket a -> ~ In (a_socket a) live) by (apply (FR t (w_trace w)); auto).
  assert (RO : 0 <= a_socket a -> replay live0 (w_trace w ++ [Opened (a_socket a)]) = Some (a_socket a :: live)).
  { intros. rewrite replay_app, R. cbn [replay]. now rewrite existsb_not_In by auto. }
  destruct D as [(-> & _ & _ & [T|[[Q T]|[Z0 T]]])|(-> & -> & CU & T)].
  - eapply IH in E; eauto. now rewrite T.
  - eapply IH in E; eauto. rewrite T, replay_app, RO by auto. cbn [replay existsb]. rewrite Z.eqb_refl. cbn [orb remove].
    destruct (Z.eq_dec _ _); [|congruence]. rewrite notin_remove by auto. reflexivity.
  - rewrite Z0 in *. eapply (IH _ _ acc w1 (0 :: live) other (0 :: leaked)) in E.
    + destruct E as (live' & zeros & E1 & E2 & E3 & E4). exists live', (zeros ++ [0]). split; [auto|]. split; [auto|]. split.
      * apply Forall_app; auto.
      * rewrite E4. rewrite <- !app_assoc. reflexivity.
    + rewrite T. apply RO. lia.
    + constructor; auto. apply NI. lia.
    + rewrite P. apply Permutation_cons_app. reflexivity.
  - change (negb (result_not Success)) with true in E. cbn iota in E.
    eapply (IH _ _ (acc ++ [iface_make i name (a_socket a)]) w1 (a_socket a :: live) other leaked) in E; auto.
    + rewrite T. apply RO. destruct CU. lia.
    + constructor; auto. apply NI. destruct CU. lia.
    + rewrite map_app. cbn [map]. change (getSocketDescriptor (iface_make i name (a_socket a))) with (a_socket a).
      rewrite P. rewrite !app_assoc. rewrite Permutation_cons_append. reflexivity.
Qed.

Lemma fold_destroy : forall g tr, destroy g tr = tr ++ map Closed (map getSocketDescriptor g).
Proof. intros. unfold destroy. now rewrite map_map. Qed.

(** Starting: what is open afterwards. *)
Lemma start_live : forall fuel m configs num kernel out log live other r out' w',
  configs_ok configs num -> fresh_descriptors live kernel -> NoDup live -> Permutation live (other ++ owned out) ->
  startInterfaceGroup fuel m configs num kernel out (World [] log) = Some (Ret (r, out', w')) ->
  exists live' leaked, replay live (w_trace w') = Some live' /\ NoDup live' /\ Forall (eq 0) leaked /\
    Permutation live' (other ++ leaked ++ owned out').
Proof.
  intros fuel m configs num kernel out log live other r out' w' OK FR ND P E. unfold startInterfaceGroup in E.
  destruct (start_loop _ _ _ _ _ _ _ _ _) as [[[g w1]|]|] eqn:L; try discriminate.
  assert (Q := start_loop_live m configs num kernel live OK FR fuel 0 0%nat [] (World [] log) live (other ++ owned out) [] g w1).
  destruct Q as (live1 & zeros & R1 & ND1 & Z1 & P1); auto; [cbn [map app]; now rewrite !app_nil_r|].
  rewrite app_nil_r in P1. destruct g as [|s g].
  - injection E as <- <- <-. exists live1, zeros. repeat split; auto. rewrite P1. cbn [map]. rewrite app_nil_r, <- app_assoc.
    apply Permutation_app_head, Permutation_app_comm.
  - injection E as <- <- <-. cbn [owned w_trace]. set (g' := s :: g) in *. destruct out as [og|]; cbn [destroy_ptr owned] in *.
    + rewrite fold_destroy, replay_app, R1.
      destruct (replay_close (map getSocketDescriptor og) live1 (other ++ zeros ++ map getSocketDescriptor g')) as (l & A & B & C); auto.
      { rewrite P1. rewrite <- !app_assoc. apply Permutation_app_head. rewrite Permutation_app_comm. now rewrite <- !app_assoc. }
      exists l, zeros. auto.
    + exists live1, zeros. rewrite app_nil_r in P1. auto.
Qed.

Lemma stop_live : forall out live other, NoDup live -> Permutation live (other ++ owned out) -> forall log r out' w',
  stopInterfaceGroup out (World [] log) = (r, out', w') ->
  r = Success /\ out' = None /\ exists live', replay live (w_trace w') = Some live' /\ Permutation live' other.
Proof.
  intros out live other ND P log r out' w' E. injection E as <- <- <-. repeat split; auto. cbn [w_trace].
  destruct out as [g|]; cbn [destroy_ptr owned] in *.
  - rewrite fold_destroy. cbn [app]. destruct (replay_close (map getSocketDescriptor g) live other) as (l & A & B & _); auto. eauto.
  - exists live. rewrite app_nil_r in P. auto.
Qed.

(** ** Results *)

Lemma Forall2_nth_error : forall A B (Q : A -> B -> Prop) l l', Forall2 Q l l' ->
  forall t a b, nth_error l t = Some a -> nth_error l' t = Some b -> Q a b.
Proof.
  intros A B Q l l' H. induction H; intros [|t] n a X Y; cbn [nth_error] in *; try discriminate; [congruence|eauto].
Qed.

Lemma start_spec : forall m configs num kernel out w, configs_ok configs num -> (length (m_required m) <= 255)%nat ->
  exists ans r out' w',
    (forall fuel, (length (m_required m) < fuel)%nat ->
       startInterfaceGroup fuel m configs num kernel out w = Some (Ret (r, out', w'))) /\
    length ans = length (m_required m) /\
    (forall t a, nth_error ans t = Some a -> answered_during kernel t (w_trace w') a) /\
    (r = NotFound <-> Forall2 (fun name a => ~ comes_up m configs num name a) (m_required m) ans) /\
    (r = Success <-> m_required m <> [] /\ Forall2 (comes_up m configs num) (m_required m) ans) /\
    (r = NotFound \/ r = Success \/ r = SuccessPartial) /\
    (r = NotFound -> out' = out) /\
    (r <> NotFound -> exists g, out' = Some g /\
      (forall t name a, nth_error (m_required m) t = Some name -> nth_error ans t = Some a ->
         (comes_up m configs num name a <-> In (iface_make (Z.of_nat t) name (a_socket a)) g)) /\
      (forall s, In s g -> exists t name a, nth_error (m_required m) t = Some name /\ nth_error ans t = Some a /\
         s = iface_make (Z.of_nat t) name (a_socket a)) /\
      StronglySorted (fun s s' => if_index s < if_index s') g).
Proof.
  intros m configs num kernel out w OK LEN.
  destruct (start_loop_spec m configs num kernel OK LEN (m_required m) [] (S (length (m_required m))) [] w eq_refl) as
    (ans & g & w1 & L & A1 & A2 & A3 & A4 & A5 & _); [lia|]. cbn [app length] in *. change (Z.of_nat 0) with 0 in L.
  cbn [Nat.add] in A2, A3, A4.
  assert (LL : forall fuel, (length (m_required m) < fuel)%nat ->
     start_loop fuel 0 0 m configs num kernel [] w = Some (Ret (g, w1))).
  { intros fuel F.
    assert (MONO : forall f1 i t acc x v, start_loop f1 i t m configs num kernel acc x = Some v ->
       forall f2, (f1 <= f2)%nat -> start_loop f2 i t m configs num kernel acc x = Some v).
    { induction f1; intros i t acc x v Q f2 LE; [discriminate|]. destruct f2; [lia|]. cbn [start_loop] in *.
      destruct (i <? Z.of_nat (length (m_required m))); auto. destruct (nth_error (m_required m) (Z.to_nat i)) as [n|]; auto.
      destruct (createInterface m i n configs num (kernel t (w_trace x)) x) as [[[r o] x']|]; auto. eapply IHf1; eauto. lia. }
    eapply MONO; eauto. }
  (* the length of the group *)
  assert (F2 : forall (Q : string -> answers -> Prop), (forall t n a, nth_error (m_required m) t = Some n -> nth_error ans t = Some a -> Q n a) ->
    Forall2 Q (m_required m) ans).
  { clear - A1. revert A1. generalize ans. induction (m_required m) as [|n l IH]; intros [|a as_] A1 Q H; cbn [length] in A1; try discriminate; constructor.
    - apply (H 0%nat); reflexivity.
    - apply IH; [lia|]. intros t. apply (H (S t)). }
  assert (F2' : forall (Q : string -> answers -> Prop), Forall2 Q (m_required m) ans -> forall t n a,
    nth_error (m_required m) t = Some n -> nth_error ans t = Some a -> Q n a).
  { intros Q H. apply Forall2_nth_error, H. }
  assert (NF : g = [] <-> Forall2 (fun name a => ~ comes_up m configs num name a) (m_required m) ans).
  { split.
    - intros ->. apply F2. intros t n a X Y. rewrite (A3 t n a X Y). auto.
    - intros H. destruct g as [|s g]; auto. exfalso. destruct (A4 s (or_introl eq_refl)) as (t & n & a & X & Y & ->).
      apply (F2' _ H t n a X Y). rewrite (A3 t n a X Y). now left. }
  (* indices of the group *)
  assert (NDg : NoDup (map if_index g)).
  { clear - A5. induction A5 as [|s g A IH H]; cbn [map]; constructor; auto. intros I. apply in_map_iff in I. destruct I as [s' [E I]].
    rewrite Forall_forall in H. specialize (H s' I). lia. }
  assert (INC : incl (map if_index g) (map Z.of_nat (seq 0 (length (m_required m))))).
  { intros x I. apply in_map_iff in I. destruct I as [s [<- I]]. destruct (A4 s I) as (t & n & a & X & Y & ->).
    cbn [if_index iface_make]. apply in_map, in_seq. assert (t < length (m_required m))%nat by (apply nth_error_Some; congruence). lia. }
  assert (LE : (length g <= length (m_required m))%nat).
  { apply NoDup_incl_length in INC; auto. rewrite !map_length, seq_length in INC. exact INC. }
  assert (EQ : (length g = length (m_required m))%nat <-> Forall2 (comes_up m configs num) (m_required m) ans).
  { split.
    - intros EL. apply F2. intros t n a X Y. apply (proj2 (A3 t n a X Y)).
      assert (I : incl (map Z.of_nat (seq 0 (length (m_required m)))) (map if_index g)).
      { apply NoDup_length_incl; auto. rewrite !map_length, seq_length. lia. }
      assert (T : (t < length (m_required m))%nat) by (apply nth_error_Some; congruence).
      specialize (I (Z.of_nat t)). destruct (in_map_iff if_index g (Z.of_nat t)) as [J _].
      destruct J as [s [E S]]; [apply I, in_map, in_seq; lia|].
      destruct (A4 s S) as (t' & n' & a' & X' & Y' & ->). cbn [if_index iface_make] in E.
      assert (t' = t) by lia. subst t'. rewrite X in X'. rewrite Y in Y'. injection X' as <-. injection Y' as <-. exact S.
    - intros H. apply Nat.le_antisymm; auto.
      assert (I : incl (map Z.of_nat (seq 0 (length (m_required m)))) (map if_index g)).
      { intros x Hx. apply in_map_iff in Hx. destruct Hx as [t [<- T]]. apply in_seq in T.
        destruct (nth_error (m_required m) t) as [n|] eqn:X; [|apply nth_error_None in X; lia].
        destruct (nth_error ans t) as [a|] eqn:Y; [|apply nth_error_None in Y; lia].
        apply in_map_iff. exists (iface_make (Z.of_nat t) n (a_socket a)). split; [reflexivity|]. apply (A3 t n a X Y).
        exact (F2' _ H t n a X Y). }
      apply NoDup_incl_length in I; [rewrite !map_length, seq_length in I; exact I|].
      apply FinFun.Injective_map_NoDup; [intros p q; lia|apply seq_NoDup]. }
  assert (CNT : getInterfaceCount g = Z.of_nat (length g)) by (unfold getInterfaceCount; lia).
  destruct g as [|s g].
  - exists ans, NotFound, out, w1. split; [|split; [auto|split; [auto|split; [|split; [|split; [auto|split; [auto|]]]]]]].
    + intros fuel F. unfold startInterfaceGroup. now rewrite LL.
    + rewrite <- NF. tauto.
    + split; [discriminate|]. intros [N H]. exfalso. apply EQ in H. cbn [length] in H. destruct (m_required m); [congruence|discriminate].
    + intros H. congruence.
  - set (g' := s :: g) in *.
    exists ans, (if Z.of_nat (length (m_required m)) <=? getInterfaceCount g' then Success else SuccessPartial), (Some g'),
      (World (destroy_ptr out (w_trace w1)) (w_filters w1)).
    split; [|split; [auto|split; [|split; [|split; [|split; [|split]]]]]].
    + intros fuel F. unfold startInterfaceGroup. rewrite LL by auto. reflexivity.
    + intros t a H. destruct (A2 t a H) as (tr & more & T & Q). cbn [w_trace]. rewrite T.
      destruct out as [g0|]; cbn [destroy_ptr]; [unfold destroy; rewrite <- app_assoc|]; exists tr; eauto.
    + rewrite <- NF. split; [destruct (_ <=? _); discriminate|discriminate].
    + rewrite CNT. destruct (Z.leb_spec (Z.of_nat (length (m_required m))) (Z.of_nat (length g'))).
      * split; auto. intros _. split.
        -- intros N. rewrite N in *. cbn [length] in LE. unfold g' in LE. cbn [length] in LE. lia.
        -- apply EQ. lia.
      * split; [discriminate|]. intros [_ Q]. apply EQ in Q. lia.
    + destruct (_ <=? _); auto.
    + destruct (_ <=? _); discriminate.
    + intros _. exists g'. auto.
Qed.

Lemma start_diverges : forall m configs num kernel, configs_ok configs num -> (256 <= length (m_required m))%nat ->
  forall fuel i t acc w, 0 <= i < 256 -> start_loop fuel i t m configs num kernel acc w = None.
Proof.
  intros m configs num kernel OK G. induction fuel; intros i t acc w I; [reflexivity|]. cbn [start_loop].
  destruct (Z.ltb_spec i (Z.of_nat (length (m_required m)))); [|lia].
  destruct (nth_error _ _) as [s|] eqn:E; [|apply nth_error_None in E; lia].
  destruct (create_cases m i s configs num (kernel t (w_trace w)) w OK) as (r & o & w1 & C & _). rewrite C.
  apply IHfuel. apply Z.mod_pos_bound. lia.
Qed.

(** ** Indices and positions *)

Lemma sorted_interval : forall p b l, StronglySorted Z.lt l -> (forall x, In x l <-> b <= x < b + Z.of_nat p) ->
  forall k x, nth_error l k = Some x -> x = b + Z.of_nat k.
Proof.
  induction p; intros b l SS I k x N.
  - destruct l as [|y l]; [destruct k; discriminate|]. exfalso. assert (b <= y < b + Z.of_nat 0) by (apply I; now left). lia.
  - destruct l as [|y l]; [destruct k; discriminate|]. inversion SS as [|? ? S' F]; subst.
    rewrite Forall_forall in F.
    assert (Y : y = b).
    { assert (B : In b (y :: l)) by (apply I; lia). assert (b <= y) by (apply I; now left).
      destruct B as [B|B]; auto. specialize (F b B). lia. }
    destruct k; cbn [nth_error] in N; [injection N as <-; lia|].
    assert (R : x = (b + 1) + Z.of_nat k); [|lia]. eapply IHp; eauto. intros z. split.
    + intros Z. specialize (F z Z). assert (b <= z < b + Z.of_nat (S p)) by (apply I; now right). lia.
    + intros Z. assert (Q : In z (y :: l)) by (apply I; lia). destruct Q as [Q|Q]; auto. lia.
Qed.

Lemma positions_iff : forall (l : list Z) n, StronglySorted Z.lt l -> (forall x, In x l -> 0 <= x < Z.of_nat n) ->
  ((forall k x, nth_error l k = Some x -> x = Z.of_nat k) <-> exists p, forall t, (t < n)%nat -> (In (Z.of_nat t) l <-> (t < p)%nat)).
Proof.
  intros l n S R. split.
  - intros H. exists (length l). intros t T. split.
    + intros I. apply In_nth_error in I. destruct I as [k K]. specialize (H k _ K). assert (t = k) as -> by lia.
      apply nth_error_Some. congruence.
    + intros L. destruct (nth_error l t) as [x|] eqn:E; [|apply nth_error_None in E; lia].
      specialize (H t x E). subst. now apply nth_error_In in E.
  - intros [p P] k x N. rewrite <- (Z.add_0_l (Z.of_nat k)). eapply (sorted_interval (min p n)); eauto.
    intros z. split.
    + intros I. specialize (R z I). assert (In (Z.of_nat (Z.to_nat z)) l) by (rewrite Z2Nat.id; [auto|lia]).
      apply P in H; lia.
    + intros B. rewrite <- (Z2Nat.id z) by lia. apply P; lia.
Qed.

Lemma indices_are_positions_iff : forall m configs num kernel out w r g w' fuel, configs_ok configs num ->
  (length (m_required m) <= 255)%nat -> (length (m_required m) < fuel)%nat ->
  startInterfaceGroup fuel m configs num kernel out w = Some (Ret (r, Some g, w')) -> r <> NotFound ->
  exists ans, length ans = length (m_required m) /\ (forall t a, nth_error ans t = Some a -> answered_during kernel t (w_trace w') a) /\
    ((forall k s, nth_error g k = Some s -> getInterfaceIndex s = Z.of_nat k) <->
     exists p, forall t name a, nth_error (m_required m) t = Some name -> nth_error ans t = Some a ->
       (comes_up m configs num name a <-> (t < p)%nat)).
Proof.
  intros m configs num kernel out w r g w' fuel OK LEN F E NR.
  destruct (start_spec m configs num kernel out w OK LEN) as (ans & r' & out' & w1 & X & L & K & _ & _ & _ & _ & G).
  rewrite (X fuel F) in E. injection E as -> -> ->. destruct (G NR) as (g' & Eg & A & B & C). injection Eg as <-.
  exists ans. split; [auto|]. split; [auto|].
  assert (S : StronglySorted Z.lt (map getInterfaceIndex g)).
  { clear - C. induction C as [|s l H IH Q]; cbn [map]; constructor; auto. rewrite Forall_map. exact Q. }
  assert (R : forall x, In x (map getInterfaceIndex g) -> 0 <= x < Z.of_nat (length (m_required m))).
  { intros x I. apply in_map_iff in I. destruct I as [s [<- I]]. destruct (B s I) as (t & n & a & T & _ & ->).
    cbn. assert (t < length (m_required m))%nat by (apply nth_error_Some; congruence). lia. }
  assert (Q := positions_iff _ _ S R). clear X. split.
  - intros H. destruct Q as [Q _]. destruct Q as [p P].
    { intros k x N. rewrite nth_error_map in N. destruct (nth_error g k) as [s|] eqn:Ek; [|discriminate]. injection N as <-. auto. }
    exists p. intros t name a T1 T2. assert (T : (t < length (m_required m))%nat) by (apply nth_error_Some; congruence).
    rewrite <- (P t T), (A t name a T1 T2). split.
    + intros I. apply (in_map getInterfaceIndex) in I. exact I.
    + intros I. apply in_map_iff in I. destruct I as [s [E I]]. destruct (B s I) as (t' & n' & a' & T1' & T2' & Es).
      rewrite Es in E, I. cbn in E. assert (t' = t) by lia. subst t'. rewrite T1 in T1'. rewrite T2 in T2'.
      injection T1' as <-. injection T2' as <-. exact I.
  - intros [p P] k s Ek. destruct Q as [_ Q]. apply Q with (k := k).
    + exists p. intros t T. destruct (nth_error (m_required m) t) as [name|] eqn:T1; [|apply nth_error_None in T1; lia].
      destruct (nth_error ans t) as [a|] eqn:T2; [|apply nth_error_None in T2; lia].
      rewrite <- (P t name a T1 T2), (A t name a T1 T2). split.
      * intros I. apply in_map_iff in I. destruct I as [s' [E I]]. destruct (B s' I) as (t' & n' & a' & T1' & T2' & Es).
        rewrite Es in E, I. cbn in E. assert (t' = t) by lia. subst t'. rewrite T1 in T1'. rewrite T2 in T2'.
        injection T1' as <-. injection T2' as <-. exact I.
      * intros I. apply (in_map getInterfaceIndex) in I. exact I.
    + now apply map_nth_error.
Qed.

(** ** The filters of a started group *)

Lemma create_filters : forall m i name cs n a w r s w', (n <= length cs)%nat -> Z.of_nat n < 2 ^ 29 ->
  createInterface m i name (Some cs) n a w = Ret (r, s, w') ->
  let fs := map kconv (firstn n cs) in
  exists news, w_filters w' = news ++ w_filters w /\ Forall (fun e => snd e = fs) news /\
    match s with Some x => In (getSocketDescriptor x, fs) news | None => True end.
Proof.
  intros m i name cs n a w r s w' L N E fs. unfold createInterface in E. destruct (openSocket _ _ _ _ _) as [fd tr].
  destruct (fd <=? 0).
  - injection E as <- <- <-. exists []. auto.
  - rewrite configure_cases in E by auto. fold fs in E. destruct (_ =? 0) in E; cbn [bind] in E.
    + change (result_not Success) with false in E. cbn iota in E. injection E as <- <- <-. exists [(fd, fs)].
      split; [reflexivity|]. split; [repeat constructor|]. now left.
    + change (result_not UnknownInternalError) with true in E. cbn iota in E. injection E as <- <- <-. exists []. auto.
Qed.

Lemma start_loop_filters : forall m cs n kernel, (n <= length cs)%nat -> Z.of_nat n < 2 ^ 29 ->
  let fs := map kconv (firstn n cs) in
  forall fuel i t acc w acc' w', start_loop fuel i t m (Some cs) n kernel acc w = Some (Ret (acc', w')) ->
  exists news g, w_filters w' = news ++ w_filters w /\ Forall (fun e => snd e = fs) news /\ acc' = acc ++ g /\
    forall s, In s g -> In (getSocketDescriptor s, fs) news.
Proof.
  intros m cs n kernel L N fs. induction fuel as [|k IH]; intros i t acc w acc' w' E; [discriminate|]. cbn [start_loop] in E.
  destruct (i <? _) eqn:I.
  2:{ injection E as <- <-. exists [], []. rewrite app_nil_r. cbn [app]. repeat split; auto. }
  destruct (nth_error _ _) as [name|]; [|discriminate].
  destruct (createInterface m i name (Some cs) n (kernel t (w_trace w)) w) as [[[r o] w1]|] eqn:C; [|discriminate].
  destruct (create_filters _ _ _ _ _ _ _ _ _ _ L N C) as (n1 & F1 & F2 & F3). fold fs in F2, F3.
  apply IH in E. destruct E as (n2 & g & G1 & G2 & G3 & G4).
  destruct o as [s|].
  - destruct (negb (result_not r)).
    + exists (n2 ++ n1), (s :: g). rewrite G1, F1, app_assoc. split; [reflexivity|]. split; [now apply Forall_app|].
      split; [rewrite G3, <- app_assoc; reflexivity|]. intros x [<-|X]; apply in_or_app; auto.
    + exists (n2 ++ n1), g. rewrite G1, F1, app_assoc. split; [reflexivity|]. split; [now apply Forall_app|].
      split; auto. intros x X. apply in_or_app; auto.
  - exists (n2 ++ n1), g. rewrite G1, F1, app_assoc. split; [reflexivity|]. split; [now apply Forall_app|].
    split; auto. intros x X. apply in_or_app; auto.
Qed.

Lemma filters_of_news : forall fs news log fd, Forall (fun e => snd e = fs) news -> In (fd, fs) news ->
  filters_of fd (news ++ log) = Some fs.
Proof.
  intros fs. induction news as [|[d f] news IH]; intros log fd F I; [destruct I|]. inversion F; subst. cbn [snd] in *.
  cbn [app filters_of]. destruct (Z.eqb_spec fd d); [reflexivity|]. apply IH; auto. destruct I as [I|I]; auto. congruence.
Qed.

Lemma started_group_filters : forall fuel m cs n kernel out w r g w', (1 <= n <= length cs)%nat -> Z.of_nat n < 2 ^ 29 ->
  Forall id_mask cs -> startInterfaceGroup fuel m (Some cs) n kernel out w = Some (Ret (r, Some g, w')) -> r <> NotFound ->
  forall s, In s g -> exists fs, filters_of (getSocketDescriptor s) (w_filters w') = Some fs /\
    forall x, SocketCanSpec.is_error x = false -> 0 <= x < 2 ^ 32 ->
      (kernel_passes fs x = true <-> SocketCanSpec.is_extended x = true /\ Exists (selected x) (firstn n cs)).
Proof.
  intros fuel m cs n kernel out w r g w' L N M E NR s S. unfold startInterfaceGroup in E.
  destruct (start_loop _ _ _ _ _ _ _ _ _) as [[[g' w1]|]|] eqn:Q; try discriminate.
  apply start_loop_filters in Q; [|lia|auto]. destruct Q as (news & g'' & F1 & F2 & F3 & F4). cbn [app] in F3. subst g''.
  assert (EG : g' = g /\ w_filters w' = w_filters w1).
  { destruct g'; injection E; intros; subst; [congruence|split; reflexivity]. }
  destruct EG as [-> EW]. exists (map kconv (firstn n cs)). split.
  - rewrite EW, F1. apply filters_of_news; auto.
  - assert (C : configureFilters (fun _ _ => 0) 1 (Some cs) n [] = Ret (Success, [(1, map kconv (firstn n cs))])).
    { rewrite configure_cases by lia. reflexivity. }
    apply configured_passes_ids in C; auto; [|lia]. destruct C as (fs & C1 & C2 & _). injection C1 as <-.
    intros x X1 X2. apply C2. split; auto.
Qed.
