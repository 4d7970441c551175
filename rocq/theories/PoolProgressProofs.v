(** Proofs about progress of the memory pool's threads. *)
From Coq Require Import ZArith Bool List Arith Lia.
From Verif Require Import Outcome PoolModel PoolConcModel PoolConcSpec PoolConcProofs PoolProgressSpec.
Import ListNotations.
Open Scope nat_scope.

(** [own] steps were made; [ev] events happened that may have cost the thread an iteration of its loop. *)
Definition paid (t own ev : nat) (s : cstate) : Prop :=
  match pcs s t with
  | ARead p => own <= 3 * ev + 1 /\ (chead s <> p -> own + 3 <= 3 * ev + 1)
  | ACas p _ => own <= 3 * ev + 2 /\ (chead s <> p -> own + 3 <= 3 * ev + 2)
  | _ => own <= 3 * ev
  end.

Lemma ptr_eqb_eq : forall p q, ptr_eqb p q = true <-> p = q.
Proof.
  intros [|a|a] [|b|b]; cbn; split; intros H; try discriminate; try reflexivity.
  - apply Nat.eqb_eq in H. congruence.
  - injection H as <-. apply Nat.eqb_refl.
  - apply Z.eqb_eq in H. congruence.
  - injection H as <-. apply Z.eqb_refl.
Qed.

Definition b2n (b : bool) : nat := if b then 1 else 0.

Lemma upd_same : forall f t c, upd f t c t = c.
Proof. intros. unfold upd. now rewrite Nat.eqb_refl. Qed.
Lemma upd_other : forall f t c u, u <> t -> upd f t c u = f u.
Proof. intros f t c u N. unfold upd. destruct (Nat.eqb_spec u t); [contradiction|reflexivity]. Qed.

(** A step that leaves the thread where it is, and the head of the list too or counts as an event. *)
Lemma paid_other : forall t own ev s s' e, paid t own ev s -> pcs s' t = pcs s t -> (chead s' = chead s \/ e = 1) -> paid t own (ev + e) s'.
Proof.
  intros t own ev s s' e P E H. unfold paid in *. rewrite E. destruct (pcs s t) as [| |p|p q|b|b o]; try lia;
    (destruct P as [A B]; split; [lia|]; intros N; destruct H as [H| ->]; [rewrite H in N; specialize (B N); lia|lia]).
Qed.

Lemma paid_step : forall t own ev s l s', paid t own ev s -> cstep l s = Step s' ->
  paid t (own + b2n (allocate_step t l s))
    (ev + (b2n (takes l s) + b2n (puts l s) + b2n (finds_empty t l s) + b2n (fails_spuriously t l s))) s'.
Proof.
  intros t own ev s l s' P E. unfold takes. rewrite E.
  destruct l as [u|u|u|u sp|u b|u|u|u b v]; cbn [allocate_step puts finds_empty fails_spuriously] in *; cbn [cstep] in E.
  - destruct (pcs s u) eqn:U; try discriminate. injection E as <-. cbn [set_pc pops chead pcs]. rewrite Nat.ltb_irrefl. cbn [b2n].
    rewrite !Nat.add_0_r. unfold paid in *. cbn [set_pc pcs chead]. destruct (Nat.eq_dec t u) as [->|N].
    + rewrite upd_same. rewrite U in P. exact P.
    + rewrite upd_other by auto. exact P.
  - destruct (pcs s u) eqn:U; try discriminate. injection E as <-. cbn [set_pc pops]. rewrite Nat.ltb_irrefl. cbn [b2n].
    destruct (Nat.eqb_spec u t) as [->|N]; cbn [b2n andb].
    + unfold paid in *. cbn [set_pc pcs chead]. rewrite upd_same. rewrite U in P. destruct (chead s) eqn:C; cbn [ptr_eqb b2n]; try lia.
      * split; [lia|congruence].
      * split; [lia|congruence].
    + rewrite !Nat.add_0_r. replace ev with (ev + 0) by lia. eapply paid_other; eauto. cbn [set_pc pcs]. apply upd_other. congruence.
  - destruct (pcs s u) as [| |p| | |] eqn:U; try discriminate. destruct p as [|b|w]; try discriminate.
    destruct (nth_error (cmem s) b) as [c|]; [|discriminate]. injection E as <-. cbn [set_pc pops]. rewrite Nat.ltb_irrefl. cbn [b2n].
    rewrite !Nat.add_0_r. destruct (Nat.eqb_spec u t) as [->|N]; cbn [b2n].
    + unfold paid in *. cbn [set_pc pcs chead]. rewrite upd_same. rewrite U in P. destruct P as [A B]. split; [lia|]. intros X. specialize (B X). lia.
    + rewrite Nat.add_0_r. replace ev with (ev + 0) by lia. eapply paid_other; eauto. cbn [set_pc pcs]. apply upd_other. congruence.
  - destruct (pcs s u) as [| | |p q| |] eqn:U; try discriminate. destruct p as [|b|w]; try discriminate.
    destruct (ptr_eqb (chead s) (At b) && negb sp) eqn:C; injection E as <-.
    + cbn [pops]. replace (pops s <? S (pops s)) with true by (symmetry; apply Nat.ltb_lt; lia).
      apply andb_true_iff in C. destruct C as [_ SP]. destruct sp; [discriminate|]. cbn [b2n]. rewrite !Nat.add_0_r.
      destruct (Nat.eqb_spec u t) as [->|N]; cbn [b2n].
      * unfold paid in *. cbn [pcs]. rewrite upd_same. rewrite U in P. lia.
      * rewrite Nat.add_0_r. eapply paid_other; eauto. cbn [pcs]. apply upd_other. congruence.
    + cbn [set_pc pops]. rewrite Nat.ltb_irrefl. cbn [b2n]. destruct (Nat.eqb_spec u t) as [->|N]; cbn [b2n].
      * unfold paid in *. cbn [set_pc pcs]. rewrite upd_same. rewrite U in P. destruct P as [A B]. destruct sp; cbn [b2n]; [lia|].
        rewrite andb_true_r in C. assert (X : chead s <> At b) by (intros X; apply ptr_eqb_eq in X; congruence). specialize (B X). lia.
      * destruct sp; cbn [b2n]; rewrite !Nat.add_0_r; replace ev with (ev + 0) by lia; (eapply paid_other; [eauto| |left; reflexivity]);
          cbn [set_pc pcs]; apply upd_other; congruence.
  - destruct (pcs s u) eqn:U; try discriminate. destruct (holds s u b); [|discriminate]. injection E as <-.
    cbn [pops]. rewrite Nat.ltb_irrefl. cbn [b2n]. rewrite !Nat.add_0_r. unfold paid in *. cbn [pcs chead]. destruct (Nat.eq_dec t u) as [->|N].
    + rewrite upd_same. rewrite U in P. exact P.
    + rewrite upd_other by auto. exact P.
  - destruct (pcs s u) eqn:U; try discriminate. injection E as <-. cbn [pops]. rewrite Nat.ltb_irrefl. cbn [b2n]. rewrite !Nat.add_0_r. cbn [Nat.add].
    destruct (Nat.eq_dec t u) as [->|N].
    + unfold paid in *. cbn [pcs]. rewrite upd_same. rewrite U in P. lia.
    + eapply paid_other; eauto. cbn [pcs]. apply upd_other. congruence.
  - destruct (pcs s u) eqn:U; try discriminate. destruct (_ <? _)%nat in E; [|discriminate]. injection E as <-.
    cbn [pops]. rewrite Nat.ltb_irrefl. cbn [b2n]. rewrite !Nat.add_0_r. unfold paid in *. cbn [pcs chead]. destruct (Nat.eq_dec t u) as [->|N].
    + rewrite upd_same. rewrite U in P. exact P.
    + rewrite upd_other by auto. exact P.
  - destruct (pcs s u) eqn:U; try discriminate. destruct (holds s u b && _)%nat in E; [|discriminate]. injection E as <-.
    cbn [pops]. rewrite Nat.ltb_irrefl. cbn [b2n]. rewrite !Nat.add_0_r. exact P.
Qed.

Lemma run_paid : forall t ls s s' own ev, paid t own ev s -> crun ls s = Step s' ->
  paid t (own + count_steps (allocate_step t) ls s)
    (ev + (count_steps takes ls s + count_steps puts ls s + count_steps (finds_empty t) ls s + count_steps (fails_spuriously t) ls s)) s'.
Proof.
  intros t. induction ls as [|l ls IH]; intros s s' own ev P E.
  - injection E as <-. cbn [count_steps]. rewrite !Nat.add_0_r. exact P.
  - cbn [crun] in E. destruct (cstep l s) as [| |s1] eqn:C; try discriminate.
    pose proof (IH s1 s' _ _ (paid_step _ _ _ _ _ _ P C) E) as R. cbn [count_steps]. rewrite C.
    unfold b2n in R. rewrite <- !Nat.add_assoc in R. rewrite <- !Nat.add_assoc.
    match goal with |- paid t ?a ?b s' => match type of R with paid t ?c ?d s' => replace a with c by lia; replace b with d by lia end end. exact R.
Qed.

Lemma paid_bound : forall t own ev s, paid t own ev s -> own <= 3 * ev + 2.
Proof. intros t own ev s P. unfold paid in P. destruct (pcs s t); lia. Qed.

Lemma allocate_bounded : forall t ls s s', (pcs s t = Idle \/ pcs s t = ALoad) -> crun ls s = Step s' ->
  count_steps (allocate_step t) ls s <=
  3 * (count_steps takes ls s + count_steps puts ls s + count_steps (finds_empty t) ls s + count_steps (fails_spuriously t) ls s) + 2.
Proof.
  intros t ls s s' I E. assert (P : paid t 0 0 s) by (unfold paid; destruct I as [-> | ->]; lia).
  pose proof (paid_bound _ _ _ _ (run_paid _ _ _ _ _ _ P E)) as B. cbn [Nat.add] in B. exact B.
Qed.

(** ** deallocate *)
Definition freeing (t done called : nat) (s : cstate) : Prop :=
  match pcs s t with
  | DXchg _ => done + 2 <= 2 * called
  | DLink _ _ => done + 1 <= 2 * called
  | _ => done <= 2 * called
  end.

Lemma freeing_step : forall t d c s l s', freeing t d c s -> cstep l s = Step s' ->
  freeing t (d + b2n (deallocate_step t l s)) (c + b2n (calls_deallocate t l s)) s'.
Proof.
  intros t d c s l s' P E. unfold freeing in *.
  destruct l as [u|u|u|u sp|u b|u|u|u b v]; cbn [deallocate_step calls_deallocate] in *; cbn [cstep] in E.
  - destruct (pcs s u) eqn:U; try discriminate. injection E as <-. cbn [b2n set_pc pcs]. destruct (Nat.eq_dec t u) as [->|N].
    + rewrite upd_same. rewrite U in P. lia.
    + rewrite upd_other by auto. destruct (pcs s t); lia.
  - destruct (pcs s u) eqn:U; try discriminate. injection E as <-. cbn [b2n set_pc pcs]. destruct (Nat.eq_dec t u) as [->|N].
    + rewrite upd_same. rewrite U in P. destruct (chead s); lia.
    + rewrite upd_other by auto. destruct (pcs s t); lia.
  - destruct (pcs s u) as [| |p| | |] eqn:U; try discriminate. destruct p as [|b|w]; try discriminate.
    destruct (nth_error (cmem s) b) as [x|]; [|discriminate]. injection E as <-. cbn [b2n set_pc pcs]. destruct (Nat.eq_dec t u) as [->|N].
    + rewrite upd_same. rewrite U in P. lia.
    + rewrite upd_other by auto. destruct (pcs s t); lia.
  - destruct (pcs s u) as [| | |p q| |] eqn:U; try discriminate. destruct p as [|b|w]; try discriminate.
    destruct (ptr_eqb (chead s) (At b) && negb sp); injection E as <-; cbn [b2n set_pc pcs]; (destruct (Nat.eq_dec t u) as [->|N];
      [rewrite upd_same; rewrite U in P; lia|rewrite upd_other by auto; destruct (pcs s t); lia]).
  - destruct (pcs s u) eqn:U; try discriminate. destruct (holds s u b); [|discriminate]. injection E as <-. cbn [pcs b2n].
    destruct (Nat.eqb_spec u t) as [->|N]; cbn [b2n].
    + rewrite upd_same. rewrite U in P. lia.
    + rewrite upd_other by auto. destruct (pcs s t); lia.
  - destruct (pcs s u) eqn:U; try discriminate. injection E as <-. cbn [pcs b2n].
    destruct (Nat.eqb_spec u t) as [->|N]; cbn [b2n].
    + rewrite upd_same. rewrite U in P. lia.
    + rewrite upd_other by auto. destruct (pcs s t); lia.
  - destruct (pcs s u) eqn:U; try discriminate. destruct (_ <? _)%nat in E; [|discriminate]. injection E as <-. cbn [pcs b2n].
    destruct (Nat.eqb_spec u t) as [->|N]; cbn [b2n].
    + rewrite upd_same. rewrite U in P. lia.
    + rewrite upd_other by auto. destruct (pcs s t); lia.
  - destruct (pcs s u) eqn:U; try discriminate. destruct (holds s u b && _)%nat in E; [|discriminate]. injection E as <-.
    cbn [pcs b2n]. rewrite !Nat.add_0_r. exact P.
Qed.

Lemma run_freeing : forall t ls s s' d c, freeing t d c s -> crun ls s = Step s' ->
  freeing t (d + count_steps (deallocate_step t) ls s) (c + count_steps (calls_deallocate t) ls s) s'.
Proof.
  intros t. induction ls as [|l ls IH]; intros s s' d c P E.
  - injection E as <-. cbn [count_steps]. rewrite !Nat.add_0_r. exact P.
  - cbn [crun] in E. destruct (cstep l s) as [| |s1] eqn:C; try discriminate.
    pose proof (IH s1 s' _ _ (freeing_step _ _ _ _ _ _ P C) E) as R. cbn [count_steps]. rewrite C. unfold b2n in R. now rewrite !Nat.add_assoc.
Qed.

Lemma deallocate_bounded : forall t ls s s', pcs s t = Idle -> crun ls s = Step s' ->
  count_steps (deallocate_step t) ls s <= 2 * count_steps (calls_deallocate t) ls s.
Proof.
  intros t ls s s' I E. assert (P : freeing t 0 0 s) by (unfold freeing; rewrite I; lia).
  pose proof (run_freeing _ _ _ _ _ _ P E) as B. cbn [Nat.add] in B. unfold freeing in B. destruct (pcs s' t); lia.
Qed.

(** ** Calls of allocate end once *)
Definition calling (t ended called : nat) (s : cstate) : Prop := ended + b2n (allocating t s) = called.

Lemma calling_step : forall t d c s l s', calling t d c s -> cstep l s = Step s' ->
  calling t (d + (b2n (takes_one t l s) + b2n (finds_empty t l s))) (c + b2n (calls_allocate t l s)) s'.
Proof.
  intros t d c s l s' P E. unfold calling, allocating in *. unfold takes_one, takes. rewrite E.
  destruct l as [u|u|u|u sp|u b|u|u|u b v]; cbn [allocate_step finds_empty calls_allocate andb] in *; cbn [cstep] in E.
  - destruct (pcs s u) eqn:U; try discriminate. injection E as <-. cbn [b2n set_pc pcs]. destruct (Nat.eqb_spec u t) as [->|N].
    + rewrite upd_same. rewrite U in P. cbn [b2n] in *. lia.
    + rewrite upd_other by auto. cbn [b2n] in *. lia.
  - destruct (pcs s u) eqn:U; try discriminate. injection E as <-. cbn [set_pc pops pcs]. rewrite Nat.ltb_irrefl, andb_false_r.
    destruct (Nat.eqb_spec u t) as [->|N]; cbn [andb].
    + rewrite upd_same. rewrite U in P. destruct (chead s); cbn [ptr_eqb b2n] in *; lia.
    + rewrite upd_other by auto. cbn [b2n] in *. lia.
  - destruct (pcs s u) as [| |p| | |] eqn:U; try discriminate. destruct p as [|b|w]; try discriminate.
    destruct (nth_error (cmem s) b) as [x|]; [|discriminate]. injection E as <-. cbn [set_pc pops pcs]. rewrite Nat.ltb_irrefl, andb_false_r.
    destruct (Nat.eq_dec t u) as [->|N].
    + rewrite upd_same. rewrite U in P. cbn [b2n] in *. lia.
    + rewrite upd_other by auto. cbn [b2n] in *. lia.
  - destruct (pcs s u) as [| | |p q| |] eqn:U; try discriminate. destruct p as [|b|w]; try discriminate.
    destruct (ptr_eqb (chead s) (At b) && negb sp); injection E as <-; cbn [set_pc pops pcs].
    + replace (pops s <? S (pops s)) with true by (symmetry; apply Nat.ltb_lt; lia). rewrite andb_true_r. destruct (Nat.eqb_spec u t) as [->|N].
      * rewrite upd_same. rewrite U in P. cbn [b2n] in *. lia.
      * rewrite upd_other by auto. cbn [b2n] in *. lia.
    + rewrite Nat.ltb_irrefl, andb_false_r. destruct (Nat.eq_dec t u) as [->|N].
      * rewrite upd_same. rewrite U in P. cbn [b2n] in *. lia.
      * rewrite upd_other by auto. cbn [b2n] in *. lia.
  - destruct (pcs s u) eqn:U; try discriminate. destruct (holds s u b); [|discriminate]. injection E as <-. cbn [pcs b2n].
    destruct (Nat.eq_dec t u) as [->|N]; [rewrite upd_same; rewrite U in P|rewrite upd_other by auto]; cbn [b2n] in *; lia.
  - destruct (pcs s u) eqn:U; try discriminate. injection E as <-. cbn [pcs b2n].
    destruct (Nat.eq_dec t u) as [->|N]; [rewrite upd_same; rewrite U in P|rewrite upd_other by auto]; cbn [b2n] in *; lia.
  - destruct (pcs s u) eqn:U; try discriminate. destruct (_ <? _)%nat in E; [|discriminate]. injection E as <-. cbn [pcs b2n].
    destruct (Nat.eq_dec t u) as [->|N]; [rewrite upd_same; rewrite U in P|rewrite upd_other by auto]; cbn [b2n] in *; lia.
  - destruct (pcs s u) eqn:U; try discriminate. destruct (holds s u b && _)%nat in E; [|discriminate]. injection E as <-.
    cbn [pcs b2n]. lia.
Qed.

Lemma run_calling : forall t ls s s' d c, calling t d c s -> crun ls s = Step s' ->
  calling t (d + (count_steps (takes_one t) ls s + count_steps (finds_empty t) ls s)) (c + count_steps (calls_allocate t) ls s) s'.
Proof.
  intros t. induction ls as [|l ls IH]; intros s s' d c P E.
  - injection E as <-. cbn [count_steps]. rewrite !Nat.add_0_r. exact P.
  - cbn [crun] in E. destruct (cstep l s) as [| |s1] eqn:C; try discriminate.
    pose proof (IH s1 s' _ _ (calling_step _ _ _ _ _ _ P C) E) as R. cbn [count_steps]. rewrite C. unfold calling, b2n in *. lia.
Qed.

Lemma allocate_ends_once : forall t ls s s', pcs s t = Idle -> crun ls s = Step s' ->
  count_steps (takes_one t) ls s + count_steps (finds_empty t) ls s + (if allocating t s' then 1 else 0) = count_steps (calls_allocate t) ls s.
Proof.
  intros t ls s s' I E. assert (P : calling t 0 0 s) by (unfold calling, allocating; rewrite I; reflexivity).
  pose proof (run_calling _ _ _ _ _ _ P E) as B. unfold calling, b2n in B. lia.
Qed.

(** ** All threads together *)
Lemma count_any : forall (p : nat -> label -> cstate -> bool) ts ls s,
  count_steps (by_any ts p) ls s <= fold_right (fun t a => count_steps (p t) ls s + a) 0 ts.
Proof.
  intros p ts. induction ls as [|l ls IH]; intros s.
  - cbn [count_steps]. lia.
  - cbn [count_steps]. set (rest := fun q => match cstep l s with Step s' => count_steps q ls s' | _ => 0 end).
    assert (R : rest (by_any ts p) <= fold_right (fun t a => rest (p t) + a) 0 ts).
    { unfold rest. destruct (cstep l s) as [| |s1]; [induction ts; cbn; lia..|apply IH]. }
    change (match cstep l s with Step s' => count_steps (by_any ts p) ls s' | _ => 0 end) with (rest (by_any ts p)).
    assert (D : (if by_any ts p l s then 1 else 0) <= fold_right (fun t a => (if p t l s then 1 else 0) + a) 0 ts).
    { clear. unfold by_any. induction ts as [|t ts IH]; [cbn; lia|]. cbn [existsb fold_right]. destruct (p t l s); cbn [orb]; [lia|exact IH]. }
    assert (S : fold_right (fun t a => ((if p t l s then 1 else 0) + rest (p t)) + a) 0 ts =
                fold_right (fun t a => (if p t l s then 1 else 0) + a) 0 ts + fold_right (fun t a => rest (p t) + a) 0 ts).
    { clear. clearbody rest. induction ts as [|t ts IH]; [reflexivity|]. cbn [fold_right]. rewrite IH. lia. }
    change (fold_right (fun t a => (if p t l s then 1 else 0) + match cstep l s with Step s' => count_steps (p t) ls s' | _ => 0 end + a) 0 ts)
      with (fold_right (fun t a => ((if p t l s then 1 else 0) + rest (p t)) + a) 0 ts).
    rewrite S. lia.
Qed.

Lemma count_member : forall (p : nat -> label -> cstate -> bool) ts t ls s, In t ts -> count_steps (p t) ls s <= count_steps (by_any ts p) ls s.
Proof.
  intros p ts t. induction ls as [|l ls IH]; intros s I; [reflexivity|]. cbn [count_steps].
  assert ((if p t l s then 1 else 0) <= if by_any ts p l s then 1 else 0).
  { unfold by_any. destruct (p t l s) eqn:E; [|lia]. replace (existsb _ ts) with true; [lia|]. symmetry. apply existsb_exists. eauto. }
  destruct (cstep l s) as [| |s1]; [lia|lia|]. specialize (IH s1 I). lia.
Qed.

Lemma paid_anywhere : forall t s, paid t 0 1 s.
Proof. intros t s. unfold paid. destruct (pcs s t); lia. Qed.

Lemma someone_succeeds : forall ts ls s s', crun ls s = Step s' ->
  5 * length ts < count_steps (by_any ts allocate_step) ls s ->
  0 < count_steps takes ls s + count_steps puts ls s + count_steps (by_any ts finds_empty) ls s + count_steps (by_any ts fails_spuriously) ls s.
Proof.
  intros ts ls s s' E B.
  destruct (Nat.eq_dec (count_steps takes ls s + count_steps puts ls s + count_steps (by_any ts finds_empty) ls s +
    count_steps (by_any ts fails_spuriously) ls s) 0) as [N|N]; [exfalso|lia].
  assert (U : forall t, In t ts -> count_steps (allocate_step t) ls s <= 5).
  { intros t I. pose proof (count_member finds_empty ts t ls s I). pose proof (count_member fails_spuriously ts t ls s I).
    pose proof (paid_bound _ _ _ _ (run_paid _ _ _ _ _ _ (paid_anywhere t s) E)) as X. cbn [Nat.add] in X. lia. }
  pose proof (count_any allocate_step ts ls s) as C.
  assert (fold_right (fun t a => count_steps (allocate_step t) ls s + a) 0 ts <= 5 * length ts); [|lia].
  clear -U. induction ts as [|t ts IH]; [cbn; lia|]. cbn [fold_right length].
  pose proof (U t (or_introl eq_refl)). specialize (IH (fun u I => U u (or_intror I))). lia.
Qed.
