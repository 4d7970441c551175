(** Proofs for C165. *)
From Coq Require Import ZArith Bool List Arith Lia Permutation.
From Verif Require Import Outcome CanFrameModel CanFrameProofs PoolModel PoolSpec PoolProofs PoolConcModel PoolConcSpec PoolConcProofs
  PoolUseSpec PoolUseProofs PoolFreshSpec PoolFreshProofs PoolOrderModel PoolOrderSpec PoolOrderProofs PoolTsoModel PoolTsoSpec.
From Verif Require PoolLinSpec PoolLinProofs.
Import ListNotations.
Open Scope nat_scope.

(** ** Buffers *)
Lemma pending_in : forall l b x, pending l b = Some x -> In (b, x) l.
Proof.
  induction l as [|[b' c] l IH]; intros b x H; cbn [pending] in H; [discriminate|].
  destruct (pending l b) as [y|] eqn:E; [injection H as <-; right; now apply IH|].
  destruct (Nat.eqb_spec b' b) as [->|]; [|discriminate]. injection H as <-. now left.
Qed.
Lemma in_pending : forall l b x, In (b, x) l -> pending l b <> None.
Proof.
  induction l as [|[b' c] l IH]; intros b x H; [destruct H|]. cbn [pending]. destruct H as [H|H].
  - injection H as -> ->. rewrite Nat.eqb_refl. destruct (pending l b); discriminate.
  - specialize (IH b x H). destruct (pending l b); [discriminate|congruence].
Qed.
Lemma pending_snoc : forall l b x b', pending (l ++ [(b, x)]) b' = if b =? b' then Some x else pending l b'.
Proof.
  induction l as [|[b0 c] l IH]; intros b x b'; cbn [pending app]; [reflexivity|].
  rewrite IH. destruct (b =? b'); [reflexivity|]. reflexivity.
Qed.

Lemma pending_app : forall l1 l2 b, pending (l1 ++ l2) b = match pending l2 b with Some x => Some x | None => pending l1 b end.
Proof.
  induction l1 as [|[b0 c] l1 IH]; intros l2 b; cbn [pending app]; [destruct (pending l2 b); reflexivity|].
  rewrite IH. destruct (pending l2 b); reflexivity.
Qed.
(** What a store that leaves is. *)
Lemma flushed : forall s t k s', tstep (TFlush t k) s = TStep s' -> exists l1 b x l2,
  buffers s t = l1 ++ (b, x) :: l2 /\ pending l1 b = None /\
  s' = TState (CState (replace_nth b x (cmem (base s))) (chead (base s)) (pcs (base s)) (holders (base s)) (pops (base s)))
         (fun t' => if t' =? t then l1 ++ l2 else buffers s t').
Proof.
  intros s t k s' E. cbn [tstep] in E. destruct (nth_error (buffers s t) k) as [[b x]|] eqn:En; [|discriminate E].
  destruct (pending (firstn k (buffers s t)) b) eqn:Ep; [discriminate E|]. injection E as <-.
  exists (firstn k (buffers s t)), b, x, (skipn (S k) (buffers s t)). repeat split; auto.
  rewrite <- (firstn_skipn k (buffers s t)) at 1. f_equal. clear Ep. revert k En. generalize (buffers s t).
  induction l as [|y l IH]; intros [|k] En; try discriminate En; cbn [skipn nth_error] in *; [congruence|now apply IH].
Qed.

(** ** The machine without buffers that does the same *)
Definition with_mem (s : tstate) (m : list cell) : cstate :=
  CState m (chead (base s)) (pcs (base s)) (holders (base s)) (pops (base s)).

Record Sim (s : tstate) (m : list cell) : Prop := {
  sm_len : length (cmem (base s)) = length m;
  sm_pend : forall t b x, pending (buffers s t) b = Some x -> nth_error m b = Some x;
  sm_mem : forall b, (forall t, pending (buffers s t) b = None) -> nth_error (cmem (base s)) b = nth_error m b;
  sm_own : forall t b, pending (buffers s t) b <> None -> forall u, has (base s) u b \/ unlinked (pcs (base s) u) b -> u = t;
  sm_data : forall t b v, In (b, CData v) (buffers s t) -> has (base s) t b
}.

Lemma sim_init : forall n, Sim (tinit n) (cmem (cinit n)).
Proof. intro n. constructor; cbn [tinit base buffers pending In]; auto; try congruence; try discriminate; try tauto. Qed.

(** A step that stores to no block. *)
Lemma sim_base : forall s m c, Sim s m -> cmem c = cmem (base s) ->
  (forall t b, pending (buffers s t) b <> None -> forall u, has c u b \/ unlinked (pcs c u) b -> (has (base s) u b \/ unlinked (pcs (base s) u) b) \/ u = t) ->
  (forall t b v, In (b, CData v) (buffers s t) -> has (base s) t b -> has c t b) ->
  Sim (TState c (buffers s)) m.
Proof.
  intros s m c [L P M O D] Em Ho Hd. constructor; cbn [base buffers]; auto.
  - now rewrite Em.
  - intros b H. rewrite Em. auto.
  - intros t b H u K. destruct (Ho t b H u K) as [K'|]; [now apply (O t b)|assumption].
  - intros t b v H. apply (Hd t b v); [exact H|]. now apply (D t b v).
Qed.
Lemma sim_set : forall s m t c, Sim s m -> ~ deallocating (pcs (base s) t) -> ~ deallocating c ->
  Sim (TState (set_pc (base s) t c) (buffers s)) m.
Proof.
  intros s m t c S Nt Nc. apply sim_base; auto.
  - intros t' b _ u [H|[q H]]; left.
    + left. apply has_set in H; [exact H|]. intros x ->. now apply Nc.
    + right. exists q. cbn [set_pc pcs] in H. destruct (upd_cases (pcs (base s)) t c u) as [[-> U]|[N U]]; rewrite U in H; [|exact H].
      subst c. now destruct Nc.
  - intros t' b v _ H. apply has_set2; [|exact H]. intros x E. rewrite E in Nt. now apply Nt.
Qed.
(** A store: whoever may store to the block is the only one. *)
Lemma sim_store : forall s m t b x c, Sim s m -> cmem c = cmem (base s) -> b < length m ->
  (has (base s) t b \/ unlinked (pcs (base s) t) b) ->
  (forall u, has c u b \/ unlinked (pcs c u) b -> u = t) ->
  (forall u b', has c u b' \/ unlinked (pcs c u) b' -> has (base s) u b' \/ unlinked (pcs (base s) u) b') ->
  (forall u b', has (base s) u b' -> has c u b') ->
  (forall v, x = CData v -> has (base s) t b) ->
  Sim (TState c (store s t b x)) (replace_nth b x m).
Proof.
  intros s m t b x c [L P M O D] Em Hb Ht H1 H2 H3 H4.
  assert (K : forall u b', b' <> b -> pending (store s t b x u) b' = pending (buffers s u) b').
  { intros u b' N. unfold store. destruct (Nat.eqb_spec u t) as [->|]; [|reflexivity]. rewrite pending_snoc.
    destruct (Nat.eqb_spec b b'); [congruence|reflexivity]. }
  assert (Kt : pending (store s t b x t) b = Some x).
  { unfold store. now rewrite Nat.eqb_refl, pending_snoc, Nat.eqb_refl. }
  assert (Ku : forall u, u <> t -> pending (store s t b x u) b = None).
  { intros u N. unfold store. destruct (Nat.eqb_spec u t); [contradiction|]. destruct (pending (buffers s u) b) eqn:E; [|reflexivity].
    destruct N. symmetry. apply (O u b); [congruence|exact Ht]. }
  constructor; cbn [base buffers].
  - rewrite Em, replace_nth_length. exact L.
  - intros u b' y H. destruct (Nat.eq_dec b' b) as [->|N].
    + destruct (Nat.eq_dec u t) as [->|Nu]; [|rewrite (Ku u Nu) in H; discriminate]. rewrite Kt in H. injection H as <-.
      now apply nth_error_replace_same.
    + rewrite K in H by exact N. rewrite nth_error_replace_other by congruence. now apply (P u).
  - intros b' H. destruct (Nat.eq_dec b' b) as [->|N]; [rewrite (H t) in Kt; discriminate|].
    rewrite nth_error_replace_other by congruence. rewrite Em. apply M. intro u. rewrite <- (K u b' N). apply H.
  - intros u b' H w W. destruct (Nat.eq_dec b' b) as [->|N].
    + destruct (Nat.eq_dec u t) as [->|Nu]; [now apply H1|]. now rewrite (Ku u Nu) in H.
    + rewrite K in H by exact N. apply (O u b' H). now apply H2.
  - intros u b' v H. apply H3. unfold store in H. destruct (Nat.eqb_spec u t) as [->|]; [|now apply (D u b' v)].
    apply in_app_iff in H. destruct H as [H|[H|[]]]; [now apply (D t b' v)|]. injection H as <- ->. now apply (H4 v).
Qed.
Lemma sim_flush : forall s m t k s', Sim s m -> tstep (TFlush t k) s = TStep s' -> Sim s' m.
Proof.
  intros s m t k s' [L P M O D] E0. destruct (flushed s t k s' E0) as (l1 & b & x & l2 & E & N1 & ->). clear E0.
  assert (Hp : pending (buffers s t) b = Some (match pending l2 b with Some y => y | None => x end)).
  { rewrite E, pending_app. cbn [pending]. rewrite Nat.eqb_refl. destruct (pending l2 b); reflexivity. }
  assert (K : forall b', b' <> b -> pending (l1 ++ l2) b' = pending (buffers s t) b').
  { intros b' N. rewrite E, !pending_app. cbn [pending]. destruct (pending l2 b'); [reflexivity|].
    destruct (Nat.eqb_spec b b'); [congruence|reflexivity]. }
  assert (K2 : forall u b' y, pending (if u =? t then l1 ++ l2 else buffers s u) b' = Some y -> pending (buffers s u) b' = Some y).
  { intros u b' y H. destruct (Nat.eqb_spec u t) as [->|]; [|exact H]. destruct (Nat.eq_dec b' b) as [->|N]; [|now rewrite <- K].
    rewrite pending_app, N1 in H. rewrite Hp. destruct (pending l2 b); [exact H|discriminate H]. }
  constructor; cbn [base buffers cmem pcs holders].
  - now rewrite replace_nth_length.
  - intros u b' y H. apply (P u). now apply K2.
  - intros b' H. destruct (Nat.eq_dec b' b) as [->|N].
    + pose proof (H t) as Ht. rewrite Nat.eqb_refl, pending_app, N1 in Ht. destruct (pending l2 b) eqn:E2; [discriminate Ht|].
      pose proof (P t b x Hp) as Hm. rewrite Hm. apply nth_error_replace_same. rewrite L. apply nth_error_Some. congruence.
    + rewrite nth_error_replace_other by congruence. apply M. intro u. specialize (H u). cbv beta in H.
      destruct (Nat.eqb_spec u t) as [e|]; [rewrite e; now rewrite <- K|exact H].
  - intros u b' H w W. apply (O u b'); [|exact W]. destruct (pending (if u =? t then l1 ++ l2 else buffers s u) b') as [y|] eqn:Ey; [|congruence].
    rewrite (K2 u b' y Ey). discriminate.
  - intros u b' v H. apply (D u b' v). destruct (Nat.eqb_spec u t) as [->|]; [|exact H]. rewrite E. apply in_app_iff in H. apply in_app_iff. cbn [In]. tauto.
Qed.

(** What a thread reads if nobody else has a store under way. *)
Lemma sees_mem : forall s m t b, Sim s m -> nothing_pending s t b -> sees s t b = nth_error m b.
Proof.
  intros s m t b S N. unfold sees. destruct (pending (buffers s t) b) as [x|] eqn:E; [symmetry; now apply (sm_pend _ _ S t)|].
  apply (sm_mem _ _ S). intro u. destruct (Nat.eq_dec u t) as [->|Nu]; [exact E|now apply N].
Qed.
Lemma sim_like : forall s m, Sim s m -> like s (with_mem s m).
Proof.
  intros s m S. constructor; try reflexivity. intros t b H. apply sees_mem; [exact S|].
  intros u Nu. destruct (pending (buffers s u) b) eqn:E; [|reflexivity]. destruct Nu. symmetry.
  apply (sm_own _ _ S u b); [congruence|]. left. left. exact H.
Qed.

Lemma holds_cons : forall s t b u b' m h p k, holds (CState m h p ((t, b) :: holders s) k) u b' = true -> (u = t /\ b' = b) \/ holds s u b' = true.
Proof.
  intros s t b u b' m h p k H. unfold holds in *. cbn [holders existsb fst snd] in H. apply orb_true_iff in H. destruct H as [H|H]; [left|now right].
  apply andb_true_iff in H. destruct H as [H1 H2]. apply Nat.eqb_eq in H1, H2. auto.
Qed.
Lemma holds_drop : forall t b l u b' m h p k, holds (CState m h p (drop t b l) k) u b' = true <->
  existsb (fun x => (fst x =? u) && (snd x =? b')) l = true /\ ~ (u = t /\ b' = b).
Proof.
  intros t b l u b' m h p k. unfold holds, drop. cbn [holders]. rewrite !existsb_exists. split.
  - intros ([x y] & H & E). apply filter_In in H. cbn [fst snd] in *. destruct H as [H F]. apply andb_true_iff in E. destruct E as [E1 E2].
    apply Nat.eqb_eq in E1, E2. subst x y. split.
    + exists (u, b'). split; [exact H|]. cbn. now rewrite !Nat.eqb_refl.
    + intros [-> ->]. rewrite !Nat.eqb_refl in F. discriminate.
  - intros [([x y] & H & E) N]. cbn [fst snd] in E. pose proof E as E0. apply andb_true_iff in E. destruct E as [E1 E2]. apply Nat.eqb_eq in E1, E2. subst x y.
    exists (u, b'). split; [|exact E0]. apply filter_In. split; [exact H|]. cbn [fst snd].
    destruct (Nat.eqb_spec u t), (Nat.eqb_spec b' b); cbn; auto; tauto.
Qed.

(** One event: the machine without buffers can do it, with the same result. *)
Lemma sim_step : forall n fr s m e s', XInv n [] fr (with_mem s m) -> Sim s m ->
  match e with Do l => visible_rule l s | _ => True end -> tstep (TDo e) s = TStep s' ->
  exists m', happens e (with_mem s m) = Step (with_mem s' m') /\ Sim s' m'.
Proof.
  intros n fr s m [l|t t' b] s' X S V E.
  - destruct l as [t|t|t|t sp|t b|t|t|t b v]; cbn [tstep happens visible_rule] in *; unfold cstep in *; cbn [with_mem pcs chead cmem].
    + destruct (pcs (base s) t) eqn:Ep; cbn [on_base] in E; try discriminate E. injection E as <-. exists m. split; [reflexivity|].
      apply sim_set; auto. rewrite Ep. auto.
    + destruct (pcs (base s) t) eqn:Ep; cbn [on_base] in E; try discriminate E. injection E as <-. exists m. split; [reflexivity|].
      apply sim_set; auto; [rewrite Ep; auto|]. destruct (chead (base s)); auto.
    + destruct (pcs (base s) t) as [| |p| | |] eqn:Ep; try discriminate E. destruct p as [|b|w]; try discriminate E.
      rewrite (sees_mem s m t b S (V b eq_refl)) in E. destruct (nth_error m b) as [x|]; [|discriminate E]. injection E as <-.
      exists m. split; [reflexivity|]. apply sim_set; auto. rewrite Ep. auto.
    + destruct (buffers s t) as [|] eqn:Eb; [|discriminate E].
      destruct (pcs (base s) t) as [| | |p q| |] eqn:Ep; cbn [on_base] in E; try discriminate E. destruct p as [|b|w]; try discriminate E.
      destruct (ptr_eqb (chead (base s)) (At b) && negb sp) eqn:Ec; cbn [on_base] in E; injection E as <-; exists m; (split; [reflexivity|]).
      * apply andb_true_iff in Ec. destruct Ec as [Ec Es]. apply ptr_eqb_true in Ec. apply negb_true_iff in Es. subst sp.
        specialize (V b q (conj Ep Ec)). apply sim_base; auto.
        -- intros u b' Hp w [[H|H]|[q' H]].
           ++ apply holds_cons in H. destruct H as [[-> ->]|H]; [|left; left; now left].
              right. destruct (Nat.eq_dec t u) as [|Nu]; [assumption|]. exfalso. apply Hp, V. congruence.
           ++ cbn [pcs] in H. destruct (upd_cases (pcs (base s)) t Idle w) as [[-> U]|[N U]]; rewrite U in H; [discriminate|]. left; left; now right.
           ++ cbn [pcs] in H. destruct (upd_cases (pcs (base s)) t Idle w) as [[-> U]|[N U]]; rewrite U in H; [discriminate|]. left; right; now exists q'.
        -- intros u b' v _ [H|H].
           ++ left. unfold holds in *. cbn [holders existsb]. now rewrite H, orb_true_r.
           ++ right. cbn [pcs]. destruct (upd_cases (pcs (base s)) t Idle u) as [[-> U]|[N U]]; rewrite U; congruence.
      * apply sim_set; auto. rewrite Ep. auto.
    + destruct (pcs (base s) t) eqn:Ep; cbn [on_base] in E; try discriminate E.
      change (holds (with_mem s m) t b) with (holds (base s) t b).
      destruct (holds (base s) t b) eqn:Eh; cbn [on_base] in E; try discriminate E. injection E as <-. exists m. split; [reflexivity|].
      apply sim_base; auto.
      * intros u b' _ w [[H|H]|[q H]]; left.
        -- apply holds_drop in H. left. left. apply H.
        -- cbn [pcs] in H. destruct (upd_cases (pcs (base s)) t (DXchg b) w) as [[-> U]|[N U]]; rewrite U in H; [|left; now right].
           injection H as <-. left. now left.
        -- cbn [pcs] in H. destruct (upd_cases (pcs (base s)) t (DXchg b) w) as [[-> U]|[N U]]; rewrite U in H; [discriminate|]. right. now exists q.
      * intros u b' v _ [H|H].
        -- destruct (Nat.eq_dec u t) as [->|N].
           ++ destruct (Nat.eq_dec b' b) as [->|N]; [right; cbn [pcs]; apply upd_same|]. left. apply holds_drop. split; [exact H|tauto].
           ++ left. apply holds_drop. split; [exact H|tauto].
        -- right. cbn [pcs]. destruct (upd_cases (pcs (base s)) t (DXchg b) u) as [[-> U]|[N U]]; rewrite U; congruence.
    + destruct (buffers s t) as [|] eqn:Eb; [|discriminate E].
      destruct (pcs (base s) t) as [| | | |b|] eqn:Ep; cbn [on_base] in E; try discriminate E. injection E as <-. exists m. split; [reflexivity|].
      apply sim_base; auto.
      * intros u b' Hp w [[H|H]|[q H]].
        -- left; left; now left.
        -- cbn [pcs] in H. destruct (upd_cases (pcs (base s)) t (DLink b (chead (base s))) w) as [[-> U]|[N U]]; rewrite U in H; [discriminate|].
           left; left; now right.
        -- cbn [pcs] in H. destruct (upd_cases (pcs (base s)) t (DLink b (chead (base s))) w) as [[-> U]|[N U]]; rewrite U in H.
           ++ injection H as <- <-. left; left; now right.
           ++ left; right; now exists q.
      * intros u b' v Hi [H|H]; [now left|]. right. cbn [pcs].
        destruct (upd_cases (pcs (base s)) t (DLink b (chead (base s))) u) as [[-> U]|[N U]]; rewrite U; [|exact H].
        rewrite Eb in Hi. destruct Hi.
    + destruct (pcs (base s) t) as [| | | | |b q] eqn:Ep; try discriminate E. rewrite (sm_len _ _ S) in E.
      destruct (Nat.ltb_spec b (length m)) as [Hb|]; [|discriminate E]. injection E as <-. exists (replace_nth b (CNext q) m). split; [reflexivity|].
      assert (F : In b fr) by (destruct (x_link _ _ _ _ X t b q Ep) as [F|[]]; exact F).
      pose proof (in_list _ _ _ _ X F) as Nh.
      assert (U : forall u b', has (CState (cmem (base s)) (chead (base s)) (upd (pcs (base s)) t Idle) (holders (base s)) (pops (base s))) u b' <->
                               has (base s) u b').
      { intros u b'. unfold has. cbn [pcs]. destruct (upd_cases (pcs (base s)) t Idle u) as [[-> U]|[N U]]; rewrite U; [|reflexivity].
        rewrite Ep. split; (intros [H|H]; [now left|discriminate]). }
      apply sim_store; auto.
      * right. now exists q.
      * intros u [H|[q' H]]; [apply U in H; now destruct (Nh u)|]. cbn [pcs] in H.
        destruct (upd_cases (pcs (base s)) t Idle u) as [[-> U']|[N U']]; rewrite U' in H; [discriminate|].
        exact (x_link2 _ _ _ _ X u t b q' q H Ep).
      * intros u b' [H|[q' H]]; [left; now apply U|right]. cbn [pcs] in H.
        destruct (upd_cases (pcs (base s)) t Idle u) as [[-> U']|[N U']]; rewrite U' in H; [discriminate|]. now exists q'.
      * intros u b' H. now apply U.
      * discriminate.
    + change (holds (with_mem s m) t b) with (holds (base s) t b).
      destruct (pcs (base s) t) eqn:Ep; try discriminate E. rewrite (sm_len _ _ S) in E. destruct (holds (base s) t b) eqn:Eh; [|discriminate E].
      cbn [andb] in *. destruct (Nat.ltb_spec b (length m)) as [Hb|]; [|discriminate E]. injection E as <-.
      exists (replace_nth b (CData v) m). split; [reflexivity|]. apply sim_store; auto.
      * left. now left.
      * intros u [H|[q H]].
        -- exact (has_unique _ _ _ _ u t b X H (or_introl Eh)).
        -- exfalso. destruct (x_link _ _ _ _ X u b q H) as [F|[]]. apply (in_list _ _ _ _ X F t). now left.
      * intros v' _. now left.
  - cbn [tstep happens] in *. destruct (pending (buffers s t) b) eqn:Epd; [discriminate E|].
    change (holds (with_mem s m) t b) with (holds (base s) t b). destruct (holds (base s) t b) eqn:Eh; cbn [on_base] in E; [|discriminate E].
    injection E as <-. exists m. split; [reflexivity|]. apply sim_base; auto.
    + intros u b' Hp w [[H|H]|H]; [|left; left; now right|left; now right].
      unfold holds in H. cbn [holders existsb fst snd] in H. apply orb_true_iff in H. destruct H as [H|H].
      * apply andb_true_iff in H. destruct H as [H1 H2]. apply Nat.eqb_eq in H1, H2. subst w b'. exfalso.
        rewrite <- (sm_own _ _ S u b Hp t (or_introl (or_introl Eh))) in Hp. congruence.
      * left; left; left. apply (holds_drop t b (holders (base s)) w b' [] Null (fun _ => Idle) 0) in H. apply H.
    + intros u b' v Hi [H|H]; [left|now right].
      unfold holds. cbn [holders existsb fst snd]. apply orb_true_iff. right.
      apply (holds_drop t b (holders (base s)) u b' [] Null (fun _ => Idle) 0). split; [exact H|]. intros [-> ->]. apply in_pending in Hi. congruence.
Qed.

(** It fails only where the machine without buffers fails. *)
Lemma sim_crash : forall s m e, Sim s m -> match e with Do l => visible_rule l s | _ => True end -> tstep (TDo e) s = TCrash ->
  happens e (with_mem s m) = Crash.
Proof.
  intros s m [l|t t' b] S V E.
  - destruct l as [t|t|t|t sp|t b|t|t|t b v]; cbn [tstep happens visible_rule] in *; unfold cstep in *; cbn [with_mem pcs chead cmem] in *.
    + destruct (pcs (base s) t); discriminate E.
    + destruct (pcs (base s) t); discriminate E.
    + destruct (pcs (base s) t) as [| |p| | |] eqn:Ep; try discriminate E. destruct p as [|b|w]; auto.
      rewrite (sees_mem s m t b S (V b eq_refl)) in E. destruct (nth_error m b) as [x|]; [discriminate E|reflexivity].
    + destruct (buffers s t); [|discriminate E]. destruct (pcs (base s) t) as [| | |[|b|w] q| |]; try discriminate E.
      destruct (_ && _); discriminate E.
    + destruct (pcs (base s) t); try discriminate E. destruct (holds _ _ _); discriminate E.
    + destruct (buffers s t); [|discriminate E]. destruct (pcs (base s) t); discriminate E.
    + destruct (pcs (base s) t); try discriminate E. rewrite (sm_len _ _ S) in E. destruct (_ <? _); [discriminate E|reflexivity].
    + destruct (pcs (base s) t); try discriminate E. destruct (_ && _); discriminate E.
  - cbn [tstep happens] in E. destruct (pending _ _); [discriminate E|]. destruct (holds _ _ _); discriminate E.
Qed.

Lemma program_snoc : forall es e, program (es ++ [e]) = program es ++ program [e].
Proof. intros es e. unfold program. apply flat_map_app. Qed.

(** Rules of the two machines. *)
Lemma fresh_there : forall s m l s', Sim s m -> fresh_rule l (base s) -> visible_rule l s -> tstep (TDo (Do l)) s = TStep s' ->
  fresh_rule l (with_mem s m).
Proof.
  intros s m l s' S F V E. destruct l as [t|t|t|t [|]|t b|t|t|t b v]; cbn [fresh_rule visible_rule] in *; auto.
  intros b q T. cbn [tstep] in E. destruct (buffers s t) eqn:Eb; [|discriminate E].
  destruct (F b q T) as (U & c & Ec & Eq). split; [exact U|]. exists c. split; [|exact Eq].
  rewrite <- Ec. symmetry. apply (sm_mem _ _ S). intro u. destruct (Nat.eq_dec u t) as [->|N]; [now rewrite Eb|].
  now apply (V b q T).
Qed.

Lemma sim_run : forall n es s, 0 < n -> trun fresh_visible_rule n es s ->
  exists m, run_with fresh_rule (cinit n) (program es) (with_mem s m) /\ Sim s m.
Proof.
  intros n es s Hn R. induction R as [|es s e s' R IH A E].
  - exists (cmem (cinit n)). split; [constructor|apply sim_init].
  - destruct IH as (m & R' & S). destruct (x_reach _ _ _ Hn R') as [fr X]. destruct e as [e|t k].
    + destruct (sim_step n fr s m e s' X S) as (m' & E' & S'); [destruct e; [apply A|exact I]|exact E|].
      exists m'. split; [|exact S']. rewrite program_snoc. cbn [program flat_map app]. econstructor; [exact R'| |exact E'].
      destruct e as [l|]; cbn [allowed]; [|exact I]. destruct A as [A1 A2]. now apply (fresh_there s m l s').
    + exists m. pose proof (sim_flush s m t k s' S E) as S'. destruct (flushed s t k s' E) as (l1 & b & x & l2 & _ & _ & ->). split; [|exact S'].
      rewrite program_snoc. cbn [program flat_map]. rewrite app_nil_r. exact R'.
Qed.
Lemma fresh_visible_safe : forall n es s e, 0 < n -> trun fresh_visible_rule n es s -> tallowed fresh_visible_rule e s -> tstep e s <> TCrash.
Proof.
  intros n es s e Hn R A C. destruct (sim_run n es s Hn R) as (m & R' & S). destruct (x_reach _ _ _ Hn R') as [fr X]. destruct e as [e|t k].
  - assert (V : match e with Do l => visible_rule l s | _ => True end) by (destruct e; [apply A|exact I]).
    pose proof (sim_crash s m e S V C) as C'. destruct e as [l|t t' b]; cbn [happens] in C'; [|destruct (holds _ _ _); discriminate C'].
    destruct l as [t|t|t|t sp|t b|t|t|t b v];
      try match type of C' with cstep ?l _ = _ => exact (proj1 (x_happens n [] fr (with_mem s m) (Do l) X I) C') end.
    unfold cstep in C'. destruct (pcs (with_mem s m) t) as [| |?|[] ?|?|? ?]; try discriminate C'. destruct (_ && _); discriminate C'.
  - cbn [tstep] in C. destruct (nth_error (buffers s t) k) as [[b x]|]; [|discriminate C]. destruct (pending _ _); discriminate C.
Qed.

(** ** Calls one at a time *)
Definition quiet (s : tstate) : Prop := forall t, pcs (base s) t <> Idle -> links_visible s t.

Lemma one_inv_of : forall n es c, 0 < n -> run_with serial_rule (cinit n) es c -> (exists fr, one_inv n fr c) /\ one_busy c.
Proof.
  intros n es c Hn R. split; [|apply (serial_reach n); now exists es]. apply (one_reach n c Hn). apply serial_one. now exists es.
Qed.
Lemma listed_link : forall n fr s m t u b, XInv n [] fr (with_mem s m) -> Sim s m -> In b fr -> links_visible s t -> u <> t -> pending (buffers s u) b = None.
Proof.
  intros n fr s m t u b X S F L N. destruct (pending (buffers s u) b) as [x|] eqn:E; [|reflexivity]. exfalso.
  apply pending_in in E. destruct x as [v|q]; [|now apply (L u b q N)]. apply (in_list _ _ _ _ X F u). exact (sm_data _ _ S u b v E).
Qed.
Lemma locked_visible : forall n fr s m l s', one_inv n fr (with_mem s m) -> Sim s m -> quiet s -> tstep (TDo (Do l)) s = TStep s' -> visible_rule l s.
Proof.
  intros n fr s m l s' (W & _ & Rf) S Q E. pose proof (x_of_w _ _ _ W) as X.
  destruct l as [t|t|t|t [|]|t b|t|t|t b v]; cbn [visible_rule]; auto.
  - intros b Ep u N. apply (listed_link n fr s m t u b X S); auto.
    + apply (Rf t). left. exact Ep.
    + apply Q. congruence.
  - intros b q [Ep Eh] u N. apply (listed_link n fr s m t u b X S); auto.
    + apply (Rf t). right. now exists q.
    + apply Q. congruence.
Qed.
Lemma quiet_step : forall s m l s' t b q, one_busy (with_mem s m) -> tstep (TDo (Do l)) s = TStep s' -> In (b, CNext q) (buffers s' t) ->
  In (b, CNext q) (buffers s t) \/ forall u, pcs (base s') u = Idle.
Proof.
  intros s m l s' t b q B E H. destruct l as [x|x|x|x sp|x y|x|x|x y v]; cbn [tstep] in E.
  - destruct (cstep _ _); inversion E; subst; auto.
  - destruct (cstep _ _); inversion E; subst; auto.
  - destruct (pcs (base s) x) as [| |[|y|w]| | |]; try discriminate E. destruct (sees s x y); inversion E; subst; auto.
  - destruct (buffers s x); [|discriminate E]. destruct (cstep _ _); inversion E; subst; auto.
  - destruct (cstep _ _); inversion E; subst; auto.
  - destruct (buffers s x); [|discriminate E]. destruct (cstep _ _); inversion E; subst; auto.
  - destruct (pcs (base s) x) as [| | | | |y p] eqn:Ep; try discriminate E. destruct (y <? _); [|discriminate E]. injection E as <-.
    right. intro u. cbn [base pcs]. destruct (upd_cases (pcs (base s)) x Idle u) as [[-> U]|[N U]]; rewrite U; [reflexivity|].
    destruct (pcs (base s) u) eqn:Eu; auto; exfalso; apply N; apply (B u x); cbn [with_mem pcs]; congruence.
  - destruct (pcs (base s) x); try discriminate E. destruct (_ && _); [|discriminate E]. injection E as <-. left.
    cbn [buffers] in H. unfold store in H. destruct (Nat.eqb_spec t x) as [->|]; [|exact H].
    apply in_app_iff in H. destruct H as [H|[H|[]]]; [exact H|discriminate H].
Qed.

Lemma locked_run : forall n es s, 0 < n -> trun locked_rule n es s ->
  exists m, run_with serial_rule (cinit n) (program es) (with_mem s m) /\ Sim s m /\ quiet s.
Proof.
  intros n es s Hn R. induction R as [|es s e s' R IH A E].
  - exists (cmem (cinit n)). split; [constructor|split; [apply sim_init|]]. intros t C. now destruct C.
  - destruct IH as (m & R' & S & Q). destruct (one_inv_of _ _ _ Hn R') as [[fr O] B]. pose proof (x_of_w _ _ _ (proj1 O)) as X. destruct e as [e|t k].
    + assert (V : match e with Do l => visible_rule l s | _ => True end).
      { destruct e as [l|]; [|exact I]. exact (locked_visible n fr s m l s' O S Q E). }
      destruct (sim_step n fr s m e s' X S V E) as (m' & E' & S').
      exists m'. split; [|split; [exact S'|]].
      * rewrite program_snoc. cbn [program flat_map app]. econstructor; [exact R'| |exact E'].
        destruct e as [l|]; cbn [allowed]; [|exact I]. destruct A as [A1 A2].
        destruct l as [t|t|t|t sp|t b|t|t|t b v]; cbn [serial_rule] in *; auto.
      * intros t Ht u b q Nu H. destruct e as [l|t1 t2 b1].
        -- destruct (quiet_step s m l s' u b q B E H) as [H'|H']; [|now apply Ht].
           cbn [happens] in E'. destruct (cstep_pc _ _ _ E') as [K _].
           destruct (Nat.eq_dec t (thread_of l)) as [->|N].
           ++ destruct (cstep_busy l _ _ E' Ht) as [K2|[[x ->]|(x & y & ->)]].
              ** exact (Q (thread_of l) K2 u b q Nu H').
              ** exact (proj2 A u b q Nu H').
              ** exact (proj2 A u b q Nu H').
           ++ pose proof (K t N) as K'. cbn [with_mem pcs] in K'. assert (K0 : pcs (base s) t <> Idle) by congruence. exact (Q t K0 u b q Nu H').
        -- cbn [tstep] in E. destruct (pending _ _); [discriminate E|]. cbn [happens] in E. destruct (holds (base s) t1 b1); [|discriminate E].
           injection E as <-. exact (Q t Ht u b q Nu H).
    + exists m. pose proof (sim_flush s m t k s' S E) as S'. destruct (flushed s t k s' E) as (l1 & b & x & l2 & Eb & _ & ->). split; [|split; [exact S'|]].
      * rewrite program_snoc. cbn [program flat_map]. rewrite app_nil_r. exact R'.
      * intros t1 Ht u b1 q Nu H. cbn [buffers base pcs] in *. apply (Q t1 Ht u b1 q Nu).
        destruct (Nat.eqb_spec u t) as [->|]; [|exact H]. rewrite Eb. apply in_app_iff in H. apply in_app_iff. cbn [In]. tauto.
Qed.
Lemma locked_safe : forall n es s e, 0 < n -> trun locked_rule n es s -> tallowed locked_rule e s -> tstep e s <> TCrash.
Proof.
  intros n es s e Hn R A C. destruct (locked_run n es s Hn R) as (m & R' & S & Q).
  destruct (one_inv_of _ _ _ Hn R') as [[fr O] B]. pose proof (x_of_w _ _ _ (proj1 O)) as X. destruct e as [e|t k].
  - destruct e as [l|t t' b].
    2:{ cbn [tstep happens] in C. destruct (pending _ _); [discriminate C|]. destruct (holds _ _ _); discriminate C. }
    assert (V : visible_rule l s).
    { destruct l as [t|t|t|t [|]|t b|t|t|t b v]; cbn [visible_rule]; auto.
      - intros b Ep u N. apply (listed_link n fr s m t u b X S); auto; [apply (proj2 (proj2 O) t); left; exact Ep|apply Q; congruence].
      - intros b q [Ep Eh] u N. apply (listed_link n fr s m t u b X S); auto; [apply (proj2 (proj2 O) t); right; now exists q|apply Q; congruence]. }
    pose proof (sim_crash s m (Do l) S V C) as C'. pose proof (proj1 (serial_safe n (with_mem s m) Hn (ex_intro _ _ R'))) as P.
    apply (safe_pointers _ _ _ P (Do l)); [|exact C']. destruct l as [t|t|t|t sp|t b|t|t|t b v]; cbn [allowed serial_rule]; auto; apply A.
  - cbn [tstep] in C. destruct (nth_error (buffers s t) k) as [[b x]|]; [|discriminate C]. destruct (pending _ _); discriminate C.
Qed.

(** ** Buffers empty themselves *)
Lemma drain_buffer : forall k s t, length (buffers s t) = k ->
  exists s', (forall ok n es, trun ok n es s -> trun ok n (es ++ repeat (TFlush t 0) k) s') /\ buffers s' t = [] /\
    pcs (base s') = pcs (base s) /\ chead (base s') = chead (base s) /\ holders (base s') = holders (base s) /\
    (forall u, u <> t -> buffers s' u = buffers s u).
Proof.
  induction k as [|k IH]; intros s t L.
  - exists s. destruct (buffers s t) eqn:E; [|discriminate L]. repeat split; auto. intros ok n es R. cbn [repeat]. now rewrite app_nil_r.
  - destruct (buffers s t) as [|[b x] rest] eqn:E; [discriminate L|]. injection L as L.
    destruct (IH (TState (CState (replace_nth b x (cmem (base s))) (chead (base s)) (pcs (base s)) (holders (base s)) (pops (base s)))
                    (fun t' => if t' =? t then rest else buffers s t')) t) as (s' & R & B & P & H & Hs & O).
    { cbn [buffers]. now rewrite Nat.eqb_refl. }
    exists s'. split; [|repeat split; auto].
    + intros ok n es Hr. cbn [repeat]. replace (es ++ TFlush t 0 :: repeat (TFlush t 0) k) with ((es ++ [TFlush t 0]) ++ repeat (TFlush t 0) k) by (rewrite <- app_assoc; reflexivity).
      apply R. eapply trun_snoc; [exact Hr|exact I|]. cbn [tstep]. now rewrite E.
    + intros u N. rewrite (O u N). cbn [buffers]. destruct (Nat.eqb_spec u t); [contradiction|reflexivity].
Qed.

(** ** Checking a given execution *)
Fixpoint tplay (es : list tevent) (s : tstate) : teffect :=
  match es with [] => TStep s | e :: es => match tstep e s with TStep s' => tplay es s' | r => r end end.
Fixpoint tkept (ok : trule) (es : list tevent) (s : tstate) : Prop :=
  match es with [] => True | e :: es => tallowed ok e s /\ match tstep e s with TStep s' => tkept ok es s' | _ => True end end.
Lemma tplay_run : forall ok n es es0 s s', trun ok n es0 s -> tkept ok es s -> tplay es s = TStep s' -> trun ok n (es0 ++ es) s'.
Proof.
  intros ok n es. induction es as [|e es IH]; intros es0 s s' R K E; cbn [tplay tkept] in *.
  - injection E as <-. now rewrite app_nil_r.
  - destruct K as [A K]. destruct (tstep e s) as [| |s1] eqn:Es; try discriminate E.
    replace (es0 ++ e :: es) with ((es0 ++ [e]) ++ es) by (rewrite <- app_assoc; reflexivity).
    apply (IH _ s1); auto. eapply trun_snoc; eauto.
Qed.

(** ** Contents *)
Lemma contents_kept : forall (ok : rule) n s m e s' t b, XInv n [] e (with_mem s m) -> Sim s m -> pool_safe ok n (with_mem s m) ->
  forall ev, match ev with TDo (Do l) => visible_rule l s /\ ok l (with_mem s m) | _ => True end -> tstep ev s = TStep s' ->
  holds (base s) t b = true -> holds (base s') t b = true -> (forall v, ev <> TDo (Do (LWrite t b v))) -> sees s' t b = sees s t b.
Proof.
  intros ok n s m fr s' t b X S P ev A E H H' N. rewrite (like_blocks _ _ (sim_like s m S) t b H).
  destruct ev as [ev|u k].
  - destruct (sim_step n fr s m ev s' X S) as (m' & E' & S'); [destruct ev; [apply A|exact I]|exact E|].
    rewrite (like_blocks _ _ (sim_like s' m' S') t b H').
    apply (safe_data _ _ _ P ev (with_mem s' m') b); auto.
    + destruct ev as [l|]; cbn [allowed]; [apply A|exact I].
    + apply holds_in in H. apply in_map_iff. now exists (t, b).
    + intros t1 v ->. assert (t1 = t) as ->; [|now apply (N v)].
      cbn [tstep] in E. destruct (pcs (base s) t1); try discriminate E. destruct (holds (base s) t1 b) eqn:E1; [|discriminate E].
      exact (has_unique _ _ _ _ t1 t b X (or_introl E1) (or_introl H)).
  - exact (like_blocks _ _ (sim_like s' m (sim_flush s m u k s' S E)) t b H').
Qed.

(** ** A pending link destroys what the next holder writes *)
Lemma trun_impl : forall (ok ok' : trule) n es s, (forall l s, ok l s -> ok' l s) -> trun ok n es s -> trun ok' n es s.
Proof.
  intros ok ok' n es s H R. induction R as [|es s e s' R IH A E]; [constructor|]. eapply trun_snoc; eauto. destruct e as [[l|]|]; cbn [tallowed] in *; auto.
Qed.
Lemma flush_to_link : forall n ok b v t u, t <> u -> forall l s es, trun ok n es s -> buffers s u = l -> buffers s t = [] ->
  nth_error (cmem (base s)) b = Some (CData v) -> holds (base s) t b = true ->
  (exists q, In (b, CNext q) l) -> (forall w, ~ In (b, CData w) l) ->
  exists k s2 s3 q, trun ok n (es ++ repeat (TFlush u 0) k) s2 /\ holds (base s2) t b = true /\ sees s2 t b = Some (CData v) /\
    tstep (TFlush u 0) s2 = TStep s3 /\ holds (base s3) t b = true /\ sees s3 t b = Some (CNext q).
Proof.
  intros n ok b v t u N l. induction l as [|[b1 x] l IH]; intros s es R El Et Em Hh [q Hq] Hd; [destruct Hq|].
  assert (Nt : (t =? u) = false) by now apply Nat.eqb_neq.
  destruct (Nat.eq_dec b1 b) as [->|Nb].
  - destruct x as [w|q1]; [exfalso; apply (Hd w); now left|]. exists 0, s. eexists. exists q1. cbn [repeat]. rewrite app_nil_r.
    split; [exact R|split; [exact Hh|split; [unfold sees; now rewrite Et|split; [cbn [tstep]; rewrite El; reflexivity|split; [exact Hh|]]]]].
    unfold sees. cbn [buffers base cmem]. rewrite Nt, Et. cbn [pending]. apply nth_error_replace_same. apply nth_error_Some. congruence.
  - destruct (IH (TState (CState (replace_nth b1 x (cmem (base s))) (chead (base s)) (pcs (base s)) (holders (base s)) (pops (base s)))
                    (fun t' => if t' =? u then l else buffers s t')) (es ++ [TFlush u 0])) as (k & s2 & s3 & q2 & R2 & H2).
    + eapply trun_snoc; [exact R|exact I|]. cbn [tstep]. now rewrite El.
    + cbn [buffers]. now rewrite Nat.eqb_refl.
    + cbn [buffers]. now rewrite Nt.
    + cbn [base cmem]. now rewrite nth_error_replace_other.
    + exact Hh.
    + exists q. destruct Hq as [Hq|Hq]; [congruence|exact Hq].
    + intros w H. apply (Hd w). now right.
    + exists (Datatypes.S k), s2, s3, q2. split; [|exact H2]. cbn [repeat]. rewrite <- app_assoc in R2. exact R2.
Qed.
Lemma late_link : forall n es s t b q u v s1, 0 < n -> trun fresh_visible_rule n es s -> takes (base s) t b q -> up_to_date (base s) b q ->
  u <> t -> pending (buffers s u) b <> None -> tstep (TDo (Do (LCas t false))) s = TStep s1 ->
  exists es2 s2 s3 q', in_order es2 /\ trun (plainly fresh_rule) n (es ++ TDo (Do (LCas t false)) :: es2) s2 /\
    holds (base s2) t b = true /\ sees s2 t b = Some (CData v) /\ tstep (TFlush u 0) s2 = TStep s3 /\
    holds (base s3) t b = true /\ sees s3 t b = Some (CNext q').
Proof.
  intros n es s t b q u v s1 Hn R [Ep Eh] U Nu Hp E.
  destruct (sim_run n es s Hn R) as (m & R' & S). destruct (x_reach _ _ _ Hn R') as [fr X].
  assert (F : In b fr).
  { pose proof (x_chain _ _ _ _ X) as C. cbn [with_mem chead] in C. rewrite Eh in C. destruct fr as [|b' fr]; [discriminate C|].
    destruct C as [C _]. injection C as ->. now left. }
  assert (Hd : forall w, ~ In (b, CData w) (buffers s u)).
  { intros w H. apply (in_list _ _ _ _ X F u). exact (sm_data _ _ S u b w H). }
  assert (Hq : exists q', In (b, CNext q') (buffers s u)).
  { destruct (pending (buffers s u) b) as [[w|q']|] eqn:Ex; [|now exists q'; apply pending_in|congruence].
    exfalso. apply (Hd w). now apply pending_in. }
  assert (Lb : b < length (cmem (base s))).
  { rewrite (sm_len _ _ S). pose proof (x_len _ _ _ _ X) as L. cbn [with_mem cmem] in L. rewrite L.
    apply (x_lt _ _ _ _ X). now left. }
  assert (R1 : trun (plainly fresh_rule) n (es ++ [TDo (Do (LCas t false))]) s1).
  { eapply trun_snoc; [eapply trun_impl; [|exact R]; intros l s0 H; apply H| |exact E]. intros b' q' [Ep' _]. rewrite Ep in Ep'. injection Ep' as <- <-. exact U. }
  cbn [tstep] in E. destruct (buffers s t) as [|] eqn:Eb; [|discriminate E]. unfold cstep in E. rewrite Ep, Eh in E. cbn [ptr_eqb] in E.
  rewrite Nat.eqb_refl in E. cbn [andb negb on_base] in E. injection E as <-.
  set (c1 := CState (cmem (base s)) q (upd (pcs (base s)) t Idle) ((t, b) :: holders (base s)) (Datatypes.S (pops (base s)))) in *.
  assert (H1 : holds c1 t b = true). { unfold c1, holds. cbn [holders existsb fst snd]. now rewrite !Nat.eqb_refl. }
  assert (R2 : trun (plainly fresh_rule) n ((es ++ [TDo (Do (LCas t false))]) ++ [TDo (Do (LWrite t b v))])
                 (TState c1 (store (TState c1 (buffers s)) t b (CData v)))).
  { eapply trun_snoc; [exact R1|exact I|]. cbn [tstep base]. unfold c1 at 1. cbn [pcs]. rewrite upd_same, H1. cbn [andb].
    assert (L1 : (b <? length (cmem c1)) = true) by now apply Nat.ltb_lt. now rewrite L1. }
  assert (Eb1 : store (TState c1 (buffers s)) t b (CData v) t = [(b, CData v)]). { unfold store. cbn [buffers]. now rewrite Nat.eqb_refl, Eb. }
  pose proof (fun s' => trun_snoc (plainly fresh_rule) n _ _ (TFlush t 0) s' R2 I) as R3. cbn [tstep buffers] in R3. rewrite Eb1 in R3.
  specialize (R3 _ eq_refl).
  destruct (flush_to_link n (plainly fresh_rule) b v t u (not_eq_sym Nu) (buffers s u) _ _ R3) as (k & s2 & s3 & q' & R4 & H4).
  - cbn [buffers]. unfold store. assert (K : (u =? t) = false) by now apply Nat.eqb_neq. now rewrite !K.
  - cbn [buffers]. now rewrite Nat.eqb_refl.
  - cbn [base cmem]. now apply nth_error_replace_same.
  - exact H1.
  - exact Hq.
  - exact Hd.
  - exists (TDo (Do (LWrite t b v)) :: TFlush t 0 :: repeat (TFlush u 0) k), s2, s3, q'. split; [|split; [|exact H4]].
    + intros t0 k0 H. destruct H as [H|[H|H]]; [discriminate H|now injection H as _ <-|]. apply repeat_spec in H. now injection H as _ <-.
    + rewrite <- !app_assoc in R4. exact R4.
Qed.

Lemma sees_written : forall s t b v s', tstep (TDo (Do (LWrite t b v))) s = TStep s' -> sees s' t b = Some (CData v).
Proof.
  intros s t b v s' E. cbn [tstep] in E. destruct (pcs (base s) t); try discriminate E. destruct (_ && _); [|discriminate E]. injection E as <-.
  unfold sees, store. cbn [buffers]. now rewrite Nat.eqb_refl, pending_snoc, Nat.eqb_refl.
Qed.
Lemma fresh_visible_tsafe : forall n es s, 0 < n -> trun fresh_visible_rule n es s -> tsafe fresh_visible_rule s.
Proof.
  intros n es s Hn R. destruct (sim_run n es s Hn R) as (m & R' & S). destruct (x_reach _ _ _ Hn R') as [fr X]. constructor.
  - exact (x_held _ _ _ _ X).
  - intros e. now apply (fresh_visible_safe n es).
  - intros e s' t b A E H H' N. pose proof (fresh_safe n (with_mem s m) Hn (ex_intro _ _ R')) as P.
    apply (contents_kept fresh_rule n s m fr s' t b X S P e); auto. destruct e as [[l|]|]; auto. destruct A as [A1 A2]. split; [exact A2|].
    now apply (fresh_there s m l s').
  - apply sees_written.
Qed.
Lemma locked_tsafe : forall n es s, 0 < n -> trun locked_rule n es s -> tsafe locked_rule s.
Proof.
  intros n es s Hn R. destruct (locked_run n es s Hn R) as (m & R' & S & Q).
  destruct (one_inv_of _ _ _ Hn R') as [[fr O] B]. pose proof (x_of_w _ _ _ (proj1 O)) as X. constructor.
  - exact (x_held _ _ _ _ X).
  - intros e. now apply (locked_safe n es).
  - intros e s' t b A E H H' N. pose proof (proj1 (serial_safe n (with_mem s m) Hn (ex_intro _ _ R'))) as P.
    apply (contents_kept serial_rule n s m fr s' t b X S P e); auto. destruct e as [[l|]|]; auto. split; [exact (locked_visible n fr s m l s' O S Q E)|].
    destruct l as [x|x|x|x sp|x y|x|x|x y v]; cbn [serial_rule]; auto; apply A.
  - apply sees_written.
Qed.

(** ** Histories *)
Lemma thistory_snoc : forall es s e s1 s2, tplay es s = TStep s1 -> tstep e s1 = TStep s2 ->
  thistory (es ++ [e]) s = thistory es s ++ match e with TDo e => PoolLinSpec.sees e (base s1) (base s2) | TFlush _ _ => [] end.
Proof.
  induction es as [|x es IH]; intros s e s1 s2 E H; cbn [tplay thistory app] in *.
  - injection E as ->. rewrite H. now rewrite app_nil_r.
  - destruct (tstep x s) as [| |s3]; try discriminate E. rewrite (IH s3 e s1 s2 E H). now rewrite app_assoc.
Qed.
Lemma trun_tplay : forall ok n es s, trun ok n es s -> tplay es (tinit n) = TStep s.
Proof.
  assert (A : forall es e s s1 s2, tplay es s = TStep s1 -> tstep e s1 = TStep s2 -> tplay (es ++ [e]) s = TStep s2).
  { induction es as [|x es IH]; intros e s s1 s2 E H; cbn [tplay app] in *.
    - injection E as ->. now rewrite H.
    - destruct (tstep x s) as [| |s3]; try discriminate E. now apply (IH e s3 s1 s2). }
  intros ok n es s R. induction R as [|es s e s' R IH _ E]; [reflexivity|]. exact (A es e _ s s' IH E).
Qed.
Lemma sees_base : forall e s m s' m', PoolLinSpec.sees e (with_mem s m) (with_mem s' m') = PoolLinSpec.sees e (base s) (base s').
Proof. intros [l|t t' b] s m s' m'; reflexivity. Qed.
Lemma fresh_history : forall n es s, 0 < n -> trun fresh_visible_rule n es s -> thistory es (tinit n) = PoolLinSpec.history_of (program es) (cinit n).
Proof.
  intros n es s Hn R. induction R as [|es s e s' R IH A E]; [reflexivity|].
  rewrite (thistory_snoc es (tinit n) e s s' (trun_tplay _ _ _ _ R) E), IH, program_snoc.
  destruct (sim_run n es s Hn R) as (m & R' & S). destruct (x_reach _ _ _ Hn R') as [fr X]. destruct e as [e|t k]; cbn [program flat_map app].
  - destruct (sim_step n fr s m e s' X S) as (m' & E' & S'); [destruct e; [apply A|exact I]|exact E|].
    rewrite (PoolLinProofs.history_snoc _ _ _ _ _ _ R' E'). now rewrite sees_base.
  - now rewrite !app_nil_r.
Qed.
Lemma locked_history : forall n es s, 0 < n -> trun locked_rule n es s -> thistory es (tinit n) = PoolLinSpec.history_of (program es) (cinit n).
Proof.
  intros n es s Hn R. induction R as [|es s e s' R IH A E]; [reflexivity|].
  rewrite (thistory_snoc es (tinit n) e s s' (trun_tplay _ _ _ _ R) E), IH, program_snoc.
  destruct (locked_run n es s Hn R) as (m & R' & S & Q). destruct (one_inv_of _ _ _ Hn R') as [[fr O] B]. pose proof (x_of_w _ _ _ (proj1 O)) as X.
  destruct e as [e|t k]; cbn [program flat_map app].
  - assert (V : match e with Do l => visible_rule l s | _ => True end).
    { destruct e as [l|]; [|exact I]. exact (locked_visible n fr s m l s' O S Q E). }
    destruct (sim_step n fr s m e s' X S V E) as (m' & E' & S').
    rewrite (PoolLinProofs.history_snoc _ _ _ _ _ _ R' E'). now rewrite sees_base.
  - now rewrite !app_nil_r.
Qed.
