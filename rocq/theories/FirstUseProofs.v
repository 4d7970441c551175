From Coq Require Import ZArith Bool List Arith Lia.
From Verif Require Import Outcome CanFrameModel CanFrameProofs PoolModel PoolSpec PoolProofs PoolConcModel PoolConcSpec PoolConcProofs
  PoolUseSpec PoolUseProofs FirstUseModel FirstUseSpec.
Import ListNotations.
Open Scope Z_scope.

Definition next_cell (n j : nat) : cell := CNext (if (j =? n - 1)%nat then Null else At (S j)).

Lemma list_ext : forall (A : Type) (l l' : list A), length l = length l' ->
  (forall j, (j < length l)%nat -> nth_error l j = nth_error l' j) -> l = l'.
Proof.
  intros A l. induction l as [|x l IH]; intros [|y l'] L H; try discriminate L; [reflexivity|].
  pose proof (H 0%nat ltac:(simpl; lia)) as H0. simpl in H0. injection H0 as <-. f_equal. apply IH; [simpl in L; lia|].
  intros j Hj. apply (H (S j)). simpl. lia.
Qed.

Lemma init_loop_nth : forall n i m, length m = n -> (i < n)%nat ->
  (forall j, (i <= j < n)%nat -> nth_error m j = Some (next_cell n j)) ->
  forall j, (j < n)%nat -> nth_error (init_loop i (At i) m) j = Some (next_cell n j).
Proof.
  intros n i. induction i as [|i IH]; intros m L Hi H j Hj; cbn [init_loop].
  - apply H. lia.
  - apply IH; [now rewrite replace_nth_length|lia| |exact Hj].
    intros k Hk. rewrite replace_nth_error by lia. destruct (Nat.eqb_spec k i) as [->|Nk]; [|apply H; lia].
    unfold next_cell. destruct (Nat.eqb_spec i (n - 1)); [lia|reflexivity].
Qed.

Lemma pool_init_nth : forall n, (0 < n)%nat -> forall j, (j < n)%nat -> nth_error (mem (pool_init n)) j = Some (next_cell n j).
Proof.
  intros n Hn. unfold pool_init. cbn [mem]. apply init_loop_nth.
  - now rewrite replace_nth_length, repeat_length.
  - lia.
  - intros j Hj. rewrite replace_nth_error by (rewrite repeat_length; lia).
    destruct (Nat.eqb_spec j (n - 1)) as [->|]; [|lia]. unfold next_cell. now rewrite Nat.eqb_refl.
Qed.

Lemma built : forall n m, (0 < n)%nat -> length m = n -> (forall j, (j < n)%nat -> nth_error m j = Some (next_cell n j)) ->
  m = mem (pool_init n).
Proof.
  intros n m Hn L H. destruct (pool_init_chain n Hn) as [L' _]. apply list_ext; [congruence|].
  intros j Hj. rewrite L in Hj. now rewrite H, pool_init_nth.
Qed.

(** What is true of the storage during construction. *)
Definition stage (n : nat) (p : place) (m : list cell) (h : ptr) : Prop :=
  length m = n /\
  match p with
  | Outside | Has => False
  | Zeroing k => (k < n)%nat
  | ClearHead | StoreHead => True
  | LoadHead => h = At 0
  | Linking b i => b = At 0 /\ h = At 0 /\ (i < n)%nat /\ forall j, (i < j < n)%nat -> nth_error m j = Some (next_cell n j)
  | SetGuard => h = At 0 /\ forall j, (j < n)%nat -> nth_error m j = Some (next_cell n j)
  end.

Lemma move_same : forall f t p, move f t p t = p.
Proof. intros. unfold move. now rewrite Nat.eqb_refl. Qed.
Lemma move_other : forall f t p t', t' <> t -> move f t p t' = f t'.
Proof. intros f t p t' N. unfold move. destruct (Nat.eqb_spec t' t); congruence. Qed.
Lemma move_cases : forall f t p t', (t' = t /\ move f t p t' = p) \/ (t' <> t /\ move f t p t' = f t').
Proof. intros f t p t'. destruct (Nat.eq_dec t' t) as [->|N]; [left; now rewrite move_same|right; now rewrite move_other]. Qed.

Definition fresh (m : list cell) (h : ptr) : cstate := CState m h (fun _ => Idle) [] 0.

Inductive FInv (safe : bool) (ok : rule) (n : nat) (s : fstate) : Prop :=
  | fi_unused : forall m h, guard s = Unset -> (forall t, places s t = Outside) -> pool_of s = fresh m h -> length m = n -> FInv safe ok n s
  | fi_building : forall t m h, guard s = (if safe then Busy t else Unset) -> (forall t', t' <> t -> places s t' = Outside) ->
      pool_of s = fresh m h -> stage n (places s t) m h -> FInv safe ok n s
  | fi_done : guard s = Done -> (forall t, places s t = Outside \/ places s t = Has) -> reachable_with ok n (pool_of s) -> FInv safe ok n s.

Lemma stage_building : forall n p m h, stage n p m h -> building p.
Proof. intros n [] m h [_ H]; simpl; auto. Qed.

(** The builder's step. *)
Lemma build_step : forall n t s m h, (0 < n)%nat -> pool_of s = fresh m h -> stage n (places s t) m h ->
  (places s t = SetGuard /\ pool_of s = cinit n /\ build n t (places s t) s = FStep (FState Done (move (places s) t Has) (cinit n))) \/
  (exists p m' h', build n t (places s t) s = FStep (FState (guard s) (move (places s) t p) (fresh m' h')) /\ stage n p m' h').
Proof.
  intros n t s m h Hn Ep [L St]. unfold build. rewrite Ep. cbn [fresh cmem chead].
  destruct (places s t) as [|k| | | |b i| |] eqn:E; try contradiction St.
  - right. do 3 eexists. split; [reflexivity|]. split; [now rewrite replace_nth_length|].
    destruct (Nat.ltb_spec (S k) n); [assumption|exact Logic.I].
  - right. do 3 eexists. split; [reflexivity|]. split; [exact L|exact Logic.I].
  - right. do 3 eexists. split; [reflexivity|]. split; [exact L|reflexivity].
  - right. exists (Linking (At 0) (n - 1)), m, h. rewrite St. split.
    + unfold at_place. rewrite Ep, St. reflexivity.
    + split; [exact L|]. split; [reflexivity|]. split; [reflexivity|]. split; [lia|]. intros j Hj. lia.
  - destruct St as (-> & -> & Hi & Hj). right. cbn [Nat.add]. rewrite (proj2 (Nat.ltb_lt i n) Hi).
    do 3 eexists. split; [reflexivity|].
    assert (K : forall j, (i <= j < n)%nat ->
              nth_error (replace_nth i (CNext (if (i =? n - 1)%nat then Null else At (S i))) m) j = Some (next_cell n j)).
    { intros j Hj'. rewrite replace_nth_error by lia. destruct (Nat.eqb_spec j i) as [->|]; [reflexivity|apply Hj; lia]. }
    split; [now rewrite replace_nth_length|]. destruct i as [|i].
    + split; [reflexivity|]. intros j Hj'. apply K. lia.
    + split; [reflexivity|]. split; [reflexivity|]. split; [lia|]. intros j Hj'. apply K. lia.
  - left. destruct St as [-> Hj]. assert (fresh m (At 0) = cinit n) as ->.
    { unfold fresh, cinit. rewrite (built n m Hn L Hj). reflexivity. }
    auto.
Qed.

Lemma finv : forall safe alone ok n s, (0 < n)%nat -> safe = true \/ alone = true -> first_use safe alone ok n s -> FInv safe ok n s.
Proof.
  intros safe alone ok n s Hn HS R. induction R as [m h L|s l s' R IH A E].
  - apply (fi_unused _ _ _ _ m h); auto.
  - destruct l as [t|t|e]; cbn [fstep] in E.
    + unfold enter in E. destruct (places s t) eqn:Ep; try discriminate E. destruct IH as [m h G O P L|t0 m h G O P S|G O P].
      * rewrite G in E. injection E as <-. apply (fi_building _ _ _ _ t m h); cbn [guard places pool_of]; auto.
        -- intros t' N. rewrite move_other by exact N. apply O.
        -- rewrite move_same. split; [exact L|lia].
      * destruct safe; [rewrite G in E; discriminate E|]. destruct HS as [HS|HS]; [discriminate HS|]. exfalso.
        apply (A HS t0). now apply stage_building with n m h.
      * rewrite G in E. injection E as <-. apply fi_done; cbn [at_place guard places pool_of]; auto.
        intro t'. destruct (move_cases (places s) t Has t') as [[-> M]|[N M]]; rewrite M; auto.
    + destruct IH as [m h G O P L|t0 m h G O P S|G O P].
      * rewrite O in E. discriminate E.
      * destruct (Nat.eq_dec t t0) as [->|N]; [|rewrite (O t N) in E; discriminate E].
        destruct (build_step n t0 s m h Hn P S) as [(B1 & B2 & B)|(p & m' & h' & B & B')]; rewrite B in E; injection E as <-.
        -- apply fi_done; cbn [guard places pool_of]; auto; [|exists []; constructor].
           intro t'. destruct (move_cases (places s) t0 Has t') as [[-> M]|[N M]]; rewrite M; auto.
        -- apply (fi_building _ _ _ _ t0 m' h'); cbn [guard places pool_of]; auto.
           ++ intros t' N. rewrite move_other by exact N. now apply O.
           ++ now rewrite move_same.
      * destruct (O t) as [Z|Z]; rewrite Z in E; discriminate E.
    + destruct (places s (actor e)) eqn:Ep; try discriminate E.
      destruct (happens e (pool_of s)) as [| |c] eqn:Eh; try discriminate E. injection E as <-.
      destruct IH as [m h G O P L|t0 m h G O P S|G O P].
      * rewrite O in Ep. discriminate Ep.
      * exfalso. destruct (Nat.eq_dec (actor e) t0) as [<-|N].
        -- apply stage_building in S. rewrite Ep in S. exact S.
        -- rewrite (O _ N) in Ep. discriminate Ep.
      * apply fi_done; cbn [guard places pool_of]; auto. destruct P as [es R']. exists (es ++ [e]). econstructor; eauto.
Qed.

Lemma first_use_inherits : forall safe alone ok n s t, (0 < n)%nat -> safe = true \/ alone = true -> first_use safe alone ok n s ->
  places s t = Has -> reachable_with ok n (pool_of s).
Proof.
  intros safe alone ok n s t Hn HS R E. destruct (finv safe alone ok n s Hn HS R) as [m h G O P L|t0 m h G O P S|G O P].
  - rewrite O in E. discriminate E.
  - exfalso. destruct (Nat.eq_dec t t0) as [->|N]; [|rewrite (O _ N) in E; discriminate E].
    apply stage_building in S. rewrite E in S. exact S.
  - exact P.
Qed.

Lemma first_use_no_crash : forall safe alone ok n s t, (0 < n)%nat -> safe = true \/ alone = true -> first_use safe alone ok n s ->
  fstep safe n (FBuild t) s <> FCrash.
Proof.
  intros safe alone ok n s t Hn HS R. cbn [fstep]. destruct (finv safe alone ok n s Hn HS R) as [m h G O P L|t0 m h G O P S|G O P].
  - rewrite O. discriminate.
  - destruct (Nat.eq_dec t t0) as [->|N]; [|rewrite (O _ N); discriminate].
    destruct (build_step n t0 s m h Hn P S) as [(_ & _ & B)|(p & m' & h' & B & _)]; rewrite B; discriminate.
  - destruct (O t) as [Z|Z]; rewrite Z; discriminate.
Qed.

Lemma first_use_crash : forall safe alone ok n s l, (0 < n)%nat -> safe = true \/ alone = true -> first_use safe alone ok n s ->
  (fstep safe n l s = FCrash <-> exists e, l = FUse e /\ places s (actor e) = Has /\ happens e (pool_of s) = Crash).
Proof.
  intros safe alone ok n s l Hn HS R. split.
  - intros E. destruct l as [t | t | e].
    + exfalso. cbn [fstep] in E. unfold enter in E. destruct (places s t); try discriminate E. destruct (guard s); discriminate E.
    + exfalso. exact (first_use_no_crash safe alone ok n s t Hn HS R E).
    + exists e. cbn [fstep] in E. destruct (places s (actor e)); try discriminate E. destruct (happens e (pool_of s)); try discriminate E.
      repeat split.
  - intros (e & -> & P & C). cbn [fstep]. now rewrite P, C.
Qed.

(** Number of steps of the constructor that are left. *)
Definition left_steps (n : nat) (p : place) : nat :=
  match p with
  | Outside | Has => 0
  | Zeroing k => (n - k) + n + 4
  | ClearHead => n + 4
  | StoreHead => n + 3
  | LoadHead => n + 2
  | Linking _ i => i + 2
  | SetGuard => 1
  end.

Lemma build_left : forall n t s m h, (0 < n)%nat -> pool_of s = fresh m h -> stage n (places s t) m h ->
  forall s', build n t (places s t) s = FStep s' -> left_steps n (places s t) = S (left_steps n (places s' t)).
Proof.
  intros n t s m h Hn Ep [L St] s' E. unfold build in E.
  destruct (places s t) as [|k| | | |b i| |] eqn:Epl; try contradiction St.
  - injection E as <-. cbn [places]. rewrite move_same. destruct (Nat.ltb_spec (S k) n); cbn [left_steps]; lia.
  - injection E as <-. cbn [places]. rewrite move_same. cbn [left_steps]. lia.
  - injection E as <-. cbn [places]. rewrite move_same. cbn [left_steps]. lia.
  - injection E as <-. cbn [at_place places]. rewrite move_same. cbn [left_steps]. lia.
  - destruct St as (-> & _ & Hi & _). cbn [Nat.add] in E. rewrite (proj2 (Nat.ltb_lt i n) Hi) in E. injection E as <-. cbn [places].
    rewrite move_same. destruct i; cbn [left_steps]; lia.
  - injection E as <-. cbn [places]. rewrite move_same. reflexivity.
Qed.

Lemma build_runs : forall safe n k s t m h, (0 < n)%nat -> pool_of s = fresh m h -> stage n (places s t) m h ->
  left_steps n (places s t) = k ->
  exists s', frun safe n (repeat (FBuild t) k) s = FStep s' /\ guard s' = Done /\ places s' t = Has /\ pool_of s' = cinit n /\
    forall t', t' <> t -> places s' t' = places s t'.
Proof.
  intros safe n k. induction k as [|k IH]; intros s t m h Hn P S K.
  - exfalso. destruct S as [_ S]. destruct (places s t) as [|? | | | |? ?| |]; try contradiction S; cbn [left_steps] in K; lia.
  - cbn [repeat frun fstep]. destruct (build_step n t s m h Hn P S) as [(B1 & B2 & B)|(p & m' & h' & B & B')];
      pose proof (build_left n t s m h Hn P S _ B) as BL; cbn [places] in BL; rewrite move_same in BL; rewrite B.
    + cbn [left_steps] in BL. assert (k = 0)%nat as -> by lia. cbn [repeat frun]. eexists. split; [reflexivity|]. cbn [guard places pool_of].
      rewrite move_same. repeat split. intros t' N. now apply move_other.
    + destruct (IH (FState (guard s) (move (places s) t p) (fresh m' h')) t m' h' Hn eq_refl) as (s' & R1 & R2 & R3 & R4 & R5).
      * cbn [places]. now rewrite move_same.
      * cbn [places]. rewrite move_same. lia.
      * exists s'. repeat split; auto. intros t' N. rewrite (R5 t' N). cbn [places]. now apply move_other.
Qed.

(** A thread that builds finishes by its own steps; then everyone else gets the reference at once. *)
Lemma first_use_completes : forall safe alone ok n s t, (0 < n)%nat -> safe = true \/ alone = true -> first_use safe alone ok n s ->
  building (places s t) ->
  exists k s', (k <= 2 * n + 4)%nat /\ frun safe n (repeat (FBuild t) k) s = FStep s' /\ places s' t = Has /\ pool_of s' = cinit n /\
    forall t', t' <> t -> exists s2, fstep safe n (FEnter t') s' = FStep s2 /\ places s2 t' = Has /\ pool_of s2 = cinit n.
Proof.
  intros safe alone ok n s t Hn HS R B. destruct (finv safe alone ok n s Hn HS R) as [m h G O P L|t0 m h G O P S|G O P].
  - rewrite O in B. destruct B.
  - destruct (Nat.eq_dec t t0) as [->|N]; [|rewrite (O _ N) in B; destruct B].
    destruct (build_runs safe n _ s t0 m h Hn P S eq_refl) as (s' & R1 & R2 & R3 & R4 & R5).
    exists (left_steps n (places s t0)), s'. split.
    + destruct S as [_ S]. destruct (places s t0) as [|? | | | |? ?| |]; cbn [left_steps]; lia.
    + repeat split; auto. intros t' N. eexists. cbn [fstep]. unfold enter. rewrite (R5 t' N), (O t' N), R2. split; [reflexivity|].
      cbn [at_place places pool_of]. rewrite move_same. auto.
  - destruct (O t) as [Z|Z]; rewrite Z in B; destruct B.
Qed.

(** Nobody is stuck for ever: whoever has no reference can enter, or somebody else is building. *)
Lemma first_use_waits : forall safe alone ok n s t, (0 < n)%nat -> safe = true \/ alone = true -> first_use safe alone ok n s ->
  places s t = Outside -> (exists s', fstep safe n (FEnter t) s = FStep s') \/ exists t', building (places s t').
Proof.
  intros safe alone ok n s t Hn HS R E. cbn [fstep]. unfold enter. rewrite E.
  destruct (finv safe alone ok n s Hn HS R) as [m h G O P L|t0 m h G O P S|G O P].
  - left. rewrite G. eauto.
  - right. exists t0. eapply stage_building; eauto.
  - left. rewrite G. eauto.
Qed.
