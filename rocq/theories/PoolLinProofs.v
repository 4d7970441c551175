(** Proofs for C142. *)
From Coq Require Import ZArith Bool List Arith Lia.
From Verif Require Import Outcome CanFrameModel PoolModel PoolConcModel PoolConcSpec PoolConcProofs PoolUseSpec PoolUseProofs PoolFreshSpec PoolFreshProofs PoolLinSpec.
Import ListNotations.
Open Scope nat_scope.

(** ** Appending *)
Lemma track_app : forall t h h' g, track t g (h ++ h') = match track t g h with Some g' => track t g' h' | None => None end.
Proof.
  intros t h h'. induction h as [|x h IH]; intro g; [reflexivity|]. destruct x as [u c|u c a|u a]; cbn [app track]; destruct (u =? t); auto.
  - destruct g; auto.
  - destruct g; auto. destruct (call_eqb c c0); auto.
  - destruct g; auto. destruct (answer_eqb a a0); auto.
Qed.

Lemma replay_app : forall h h' st, replay st (h ++ h') = match replay st h with Some st' => replay st' h' | None => None end.
Proof.
  intros h h'. induction h as [|x h IH]; intro st; [reflexivity|]. destruct x as [u c|u c a|u a]; cbn [app replay]; auto.
  destruct (stack_step c a st); auto.
Qed.

Lemma history_snoc : forall ok s es s1 e s2, run_with ok s es s1 -> happens e s1 = Step s2 ->
  history_of (es ++ [e]) s = history_of es s ++ sees e s1 s2.
Proof.
  assert (A : forall es e s s1 s2, erun es s = Step s1 -> happens e s1 = Step s2 ->
            history_of (es ++ [e]) s = history_of es s ++ sees e s1 s2).
  { intro es. induction es as [|x es IH]; intros e s s1 s2 E H; cbn [erun history_of app] in *.
    - injection E as ->. rewrite H. now rewrite app_nil_r.
    - destruct (happens x s) as [| |s']; try discriminate E. rewrite (IH e s' s1 s2 E H). apply app_assoc. }
  intros ok s es s1 e s2 R H. apply A; [|exact H].
  clear H. induction R as [s|s es s1 e' s2' R IH P E]; [reflexivity|].
  assert (B : forall es e s s1 s2, erun es s = Step s1 -> happens e s1 = Step s2 -> erun (es ++ [e]) s = Step s2).
  { clear. intro es. induction es as [|x es IH]; intros e s s1 s2 E H; cbn [erun app] in *.
    - injection E as ->. now rewrite H.
    - destruct (happens x s) as [| |s']; try discriminate E. now apply (IH e s' s1 s2). }
  now apply (B es e' s s1 s2').
Qed.

(** ** The invariant *)
Definition stage_of (c : pc) : stage :=
  match c with
  | Idle => Outside
  | ALoad | ARead _ | ACas _ _ => Pending Allocate
  | DXchg b => Pending (Deallocate b)
  | DLink _ _ => Effective Done
  end.

Record LInv (n : nat) (fr : list nat) (h h' : list action) (s : cstate) : Prop := {
  li_pool : XInv n [] fr s;
  li_seen : List.filter (fun x => negb (is_point x)) h' = h;
  li_track : forall t, track t Outside h' = Some (stage_of (pcs s t));
  li_replay : replay (seq 0 n) h' = Some fr
}.

(** Extending a history by actions of thread [t] only. *)
Lemma linv_extend : forall n fr fr' h h' s s' t x seen,
  LInv n fr h h' s -> XInv n [] fr' s' ->
  List.filter (fun x => negb (is_point x)) x = seen ->
  (forall t', t' <> t -> pcs s' t' = pcs s t') ->
  (forall t', t' <> t -> forall g, track t' g x = Some g) ->
  track t (stage_of (pcs s t)) x = Some (stage_of (pcs s' t)) ->
  replay fr x = Some fr' ->
  LInv n fr' (h ++ seen) (h' ++ x) s'.
Proof.
  intros n fr fr' h h' s s' t x seen [I E T R] I' Ex Hp Ho Ht Hr. constructor; auto.
  - rewrite filter_app. now rewrite E, Ex.
  - intro t'. rewrite track_app, T. destruct (Nat.eq_dec t' t) as [->|N]; [exact Ht|]. rewrite (Ho t' N). now rewrite (Hp t' N).
  - rewrite replay_app, R. exact Hr.
Qed.

Ltac others := let t' := fresh in let N := fresh in let g := fresh in
  intros t' N g; cbn [track];
  repeat match goal with |- context [(?a =? t')] => destruct (Nat.eqb_spec a t'); [congruence|] end; reflexivity.

Lemma grown : forall (x : nat * nat) l, length l <? length (x :: l) = true.
Proof. intros x l. apply Nat.ltb_lt. cbn [length]. lia. Qed.

Lemma lin_do : forall n fr h h' s l s', LInv n fr h h' s -> fresh_rule l s -> cstep l s = Step s' ->
  exists fr' h2, LInv n fr' (h ++ sees (Do l) s s') h2 s'.
Proof.
  intros n fr h h' s l s' L P E. pose proof (li_pool _ _ _ _ _ L) as I. unfold sees.
  destruct l as [t|t|t|t sp|t b|t|t|t b v]; cbn [fresh_rule thread_of] in *; cbn [cstep] in E;
    destruct (pcs s t) as [| |p|p q|b0|b0 old] eqn:Ep; try discriminate E.
  - (* LStartAlloc *)
    injection E as <-. exists fr, (h' ++ [Call t Allocate]). eapply linv_extend with (s := s) (t := t); eauto.
    + apply x_set_pc; auto; try discriminate. rewrite Ep. auto.
    + cbn [set_pc pcs]. rewrite upd_same. reflexivity.
    + intros t' N. now apply upd_other.
    + others.
    + cbn [set_pc pcs track]. rewrite upd_same, Ep, Nat.eqb_refl. reflexivity.
  - (* LLoad *)
    destruct (chead s) as [|b|z] eqn:Eh; injection E as <-.
    + pose proof (x_chain _ _ _ _ I) as C. rewrite Eh in C. destruct fr as [|x fr]; [|destruct C as [C _]; discriminate C].
      exists [], (h' ++ [Point t Allocate GotNull; Return t GotNull]). eapply linv_extend with (s := s) (t := t); eauto.
      * apply x_set_pc; auto; try discriminate. rewrite Ep. auto.
      * cbn [set_pc pcs holders]. rewrite upd_same. rewrite Nat.ltb_irrefl. reflexivity.
      * intros t' N. now apply upd_other.
      * others.
      * cbn [set_pc pcs track]. rewrite upd_same, Ep, Nat.eqb_refl. reflexivity.
    + exists fr, (h' ++ []). eapply linv_extend with (s := s) (t := t); eauto.
      * apply x_set_pc; auto; try discriminate; [rewrite Ep; auto|]. intros p Hp. injection Hp as <-. exists b. split; [reflexivity|].
        pose proof (x_chain _ _ _ _ I) as C. destruct fr as [|x fr']; cbn [chainR] in C; [congruence|]. destruct C as [C _].
        rewrite Eh in C. injection C as ->. apply (x_lt _ _ _ _ I). left. now left.
      * cbn [set_pc pcs]. rewrite upd_same. reflexivity.
      * intros t' N. now apply upd_other.
      * cbn [set_pc pcs]. rewrite upd_same, Ep. reflexivity.
    + exfalso. pose proof (x_chain _ _ _ _ I) as C. rewrite Eh in C. destruct fr as [|x fr]; [discriminate C|destruct C as [C _]; discriminate C].
  - (* LRead *)
    destruct p as [|b|z]; try discriminate E. destruct (nth_error (cmem s) b) as [c|] eqn:En; [|discriminate E].
    injection E as <-.
    exists fr, (h' ++ []). eapply linv_extend with (s := s) (t := t); eauto.
    + apply x_set_pc; auto; [rewrite Ep; auto|discriminate|].
      intros p q H. injection H as <- <-. destruct (x_read _ _ _ _ I t (At b) Ep) as (b' & Eb & Hb). eauto.
    + cbn [set_pc pcs]. rewrite upd_same. reflexivity.
    + intros t' N. now apply upd_other.
    + cbn [set_pc pcs]. rewrite upd_same, Ep. reflexivity.
  - (* LCas *)
    destruct p as [|b|z]; try discriminate E. destruct (ptr_eqb (chead s) (At b) && negb sp) eqn:Ec; injection E as <-.
    + apply andb_true_iff in Ec. destruct Ec as [Ec Es]. apply ptr_eqb_true in Ec. apply negb_true_iff in Es. subst sp.
      destruct (x_cas_fresh n [] fr s t b q I (conj Ep Ec) (P b q (conj Ep Ec))) as [fr' [-> I']].
      exists fr', (h' ++ [Point t Allocate (Got b); Return t (Got b)]). eapply linv_extend with (s := s) (t := t); eauto.
      * cbn [pcs holders]. rewrite upd_same. rewrite grown. reflexivity.
      * intros t' N. now apply upd_other.
      * others.
      * cbn [pcs track]. rewrite upd_same, Ep, Nat.eqb_refl. cbn [stage_of call_eqb answer_eqb]. now rewrite Nat.eqb_refl.
      * cbn [replay stack_step]. now rewrite Nat.eqb_refl.
    + exists fr, (h' ++ []). eapply linv_extend with (s := s) (t := t); eauto.
      * apply x_set_pc; auto; try discriminate. rewrite Ep. auto.
      * cbn [set_pc pcs]. rewrite upd_same. reflexivity.
      * intros t' N. now apply upd_other.
      * cbn [set_pc pcs]. rewrite upd_same, Ep. reflexivity.
  - (* LStartFree *)
    destruct (holds s t b) eqn:Eh; [|discriminate E]. injection E as <-.
    exists fr, (h' ++ [Call t (Deallocate b)]). eapply linv_extend with (s := s) (t := t); eauto.
    + now apply x_free.
    + cbn [pcs]. rewrite upd_same. reflexivity.
    + intros t' N. now apply upd_other.
    + others.
    + cbn [pcs track]. rewrite upd_same, Ep, Nat.eqb_refl. reflexivity.
  - (* LXchg *)
    injection E as <-. exists (b0 :: fr), (h' ++ [Point t (Deallocate b0) Done]). eapply linv_extend with (s := s) (t := t); eauto.
    + apply x_put; auto.
    + cbn [pcs]. rewrite upd_same. reflexivity.
    + intros t' N. now apply upd_other.
    + others.
    + cbn [pcs track]. rewrite upd_same, Ep, Nat.eqb_refl. cbn [stage_of call_eqb]. now rewrite Nat.eqb_refl.
  - (* LLink *)
    destruct (x_do_link n [] fr s t b0 old I Ep) as [Hb I']. destruct (_ <? _); [|discriminate E]. injection E as <-.
    exists fr, (h' ++ [Return t Done]). eapply linv_extend with (s := s) (t := t); eauto.
    + cbn [pcs]. rewrite upd_same. reflexivity.
    + intros t' N. now apply upd_other.
    + others.
    + cbn [pcs track]. rewrite upd_same, Ep, Nat.eqb_refl. reflexivity.
  - (* LWrite *)
    destruct (holds s t b) eqn:Eh; [|discriminate E]. cbn [andb] in E.
    destruct (Nat.ltb_spec b (length (cmem s))) as [Hb|Hb]; [|discriminate E]. injection E as <-.
    exists fr, (h' ++ []). eapply linv_extend with (s := s) (t := t); eauto.
    + eapply x_write; eauto.
    + cbn [pcs]. rewrite Ep. reflexivity.
Qed.

Lemma lin_run : forall n es s, 0 < n -> run_with fresh_rule (cinit n) es s -> exists fr h', LInv n fr (history_of es (cinit n)) h' s.
Proof.
  intros n es s Hn R. remember (cinit n) as s0. induction R as [s|s es s1 e s2 R IH P E]; subst.
  - exists (seq 0 n), []. constructor; try reflexivity. apply x_of_w. now apply winit.
  - destruct (IH eq_refl) as (fr & h' & L). rewrite (history_snoc _ _ _ _ _ _ R E).
    destruct e as [l|t t' b]; cbn [allowed happens] in *.
    + destruct (lin_do n fr _ h' s1 l s2 L P E) as (fr' & h2 & L'). eauto.
    + destruct (holds s1 t b) eqn:Eh; [|discriminate E]. injection E as <-. exists fr, h'. cbn [sees]. rewrite app_nil_r.
      destruct L as [I F T Rp]. constructor; auto. now apply x_give.
Qed.

Lemma fresh_linearizable : forall n es s, 0 < n -> run_with fresh_rule (cinit n) es s -> linearizable n (history_of es (cinit n)).
Proof.
  intros n es s Hn R. destruct (lin_run n es s Hn R) as (fr & h' & [I F T Rp]). exists h'. split; [exact F|]. split.
  - intro t. rewrite T. discriminate.
  - rewrite Rp. discriminate.
Qed.

Lemma hazard_linearizable : forall n es s, 0 < n -> run_with hazard_rule (cinit n) es s -> linearizable n (history_of es (cinit n)).
Proof. intros n es s Hn R. eapply fresh_linearizable; [exact Hn|]. now apply (hazard_fresh n es s Hn). Qed.

(** ** The other rules keep rule 1, with the same events *)
Lemma one_run : forall n es s, 0 < n -> run_with one_allocator_rule (cinit n) es s ->
  (exists fr, one_inv n fr s) /\ run_with hazard_rule (cinit n) es s.
Proof.
  intros n es s Hn R. remember (cinit n) as s0. induction R as [s|s ls s1 e s2 R IH P E]; subst.
  - split; [|constructor]. exists (seq 0 n). split; [now apply winit|]. split.
    + intros t t' At. destruct At.
    + intros t b [C|[q C]]; discriminate C.
  - destruct (IH eq_refl) as [[fr I] R']. split; [eapply one_step; eauto|]. econstructor; eauto. eapply one_step; eauto.
Qed.

Lemma irq_run : forall n es s, 0 < n -> run_with handlers_free_rule (cinit n) es s ->
  main_only s /\ run_with one_allocator_rule (cinit n) es s.
Proof.
  intros n es s Hn R. remember (cinit n) as s0. induction R as [s|s ls s1 e s2 R IH P E]; subst.
  - split; [intros t []|constructor].
  - destruct (IH eq_refl) as [M R']. destruct e as [l|t t' b].
    + destruct (irq_one l s1 s2 M P E) as [P1 M1]. split; [exact M1|]. econstructor; eauto.
    + split; [|econstructor; eauto; exact Logic.I].
      cbn [happens] in E. destruct (holds s1 t b); [|discriminate E]. injection E as <-. exact M.
Qed.

Lemma phase_run : forall n es s, run_with phase_ok (cinit n) es s -> one_kind s /\ run_with hazard_rule (cinit n) es s.
Proof.
  intros n es s R. remember (cinit n) as s0. induction R as [s|s ls s1 e s2 R IH P E]; subst.
  - split; [intros t t' []|constructor].
  - destruct (IH eq_refl) as [M R']. destruct e as [l|t t' b].
    + destruct (phase_step s1 l s2 M P E) as [P1 M1]. split; [exact M1|]. econstructor; eauto.
    + split; [|econstructor; eauto; exact Logic.I].
      cbn [happens] in E. destruct (holds s1 t b); [|discriminate E]. injection E as <-. exact M.
Qed.

(** ** A condition every linearizable history meets *)
Definition hits (b : nat) (h : list action) : nat :=
  length (List.filter (fun x => match x with Return _ (Got b') => b' =? b | _ => false end) h).
Definition frees (b : nat) (h : list action) : nat :=
  length (List.filter (fun x => match x with Call _ (Deallocate b') => b' =? b | _ => false end) h).
Definition point_hits (b : nat) (h : list action) : nat :=
  length (List.filter (fun x => match x with Point _ _ (Got b') => b' =? b | _ => false end) h).
Definition point_frees (b : nat) (h : list action) : nat :=
  length (List.filter (fun x => match x with Point _ (Deallocate b') _ => b' =? b | _ => false end) h).

Lemma stack_count : forall b h st st', replay st h = Some st' ->
  count_occ Nat.eq_dec st' b + point_hits b h = count_occ Nat.eq_dec st b + point_frees b h.
Proof.
  intros b h. induction h as [|x h IH]; intros st st' E; cbn [replay] in E.
  - injection E as <-. reflexivity.
  - destruct x as [t c|t c a|t a]; try (now apply IH).
    unfold point_hits, point_frees. cbn [List.filter].
    destruct c as [|b0], a as [b1| |]; cbn [stack_step] in E; try (destruct st; discriminate E); try discriminate E.
    + destruct st as [|top st]; [discriminate E|]. destruct (Nat.eqb_spec b1 top) as [->|]; [|discriminate E].
      specialize (IH _ _ E). unfold point_hits, point_frees in IH. cbn [count_occ].
      destruct (Nat.eqb_spec top b) as [->|N]; destruct (Nat.eq_dec _ _); try congruence; cbn [length]; lia.
    + destruct st as [|top st]; [|discriminate E]. specialize (IH _ _ E). exact IH.
    + specialize (IH _ _ E). unfold point_hits, point_frees in IH. cbn [count_occ] in IH.
      destruct (Nat.eqb_spec b0 b) as [->|N]; destruct (Nat.eq_dec _ _); try congruence; cbn [length]; lia.
Qed.

(** Counting actions, all and those of one thread. *)
Definition actor (x : action) : nat := match x with Call t _ | Point t _ _ | Return t _ => t end.
Definition cnt (f : action -> bool) (h : list action) : nat := length (List.filter f h).
Definition cnt_of (t : nat) (f : action -> bool) (h : list action) : nat := cnt (fun x => (actor x =? t) && f x) h.

Lemma sum_one : forall (g : nat -> nat) u ts, NoDup ts -> In u ts ->
  list_sum (map (fun t => (if u =? t then 1 else 0) + g t) ts) = S (list_sum (map g ts)).
Proof.
  intros g u ts. induction ts as [|t ts IH]; intros N H; [destruct H|]. apply NoDup_cons_iff in N. destruct N as [N1 N2].
  cbn [map list_sum fold_right]. destruct H as [->|H].
  - rewrite Nat.eqb_refl. f_equal. f_equal. f_equal.
    assert (A : forall l, ~ In u l -> map (fun t => (if u =? t then 1 else 0) + g t) l = map g l).
    { induction l as [|y l IHl]; intro Hn; [reflexivity|]. cbn [map]. destruct (Nat.eqb_spec u y) as [->|]; [exfalso; apply Hn; now left|].
      rewrite IHl; [reflexivity|]. intro. apply Hn. now right. }
    now rewrite (A ts N1).
  - destruct (Nat.eqb_spec u t) as [->|]; [contradiction|]. specialize (IH N2 H). unfold list_sum in IH. rewrite IH. lia.
Qed.

Lemma cnt_sum : forall f h ts, NoDup ts -> (forall x, In x h -> In (actor x) ts) -> cnt f h = list_sum (map (fun t => cnt_of t f h) ts).
Proof.
  intros f h ts N. induction h as [|x h IH]; intro H.
  - unfold cnt_of, cnt. cbn. clear. induction ts; [reflexivity|exact IHts].
  - assert (Hh : forall y, In y h -> In (actor y) ts) by (intros y Hy; apply H; now right).
    specialize (IH Hh). unfold cnt. cbn [List.filter]. destruct (f x) eqn:Ef.
    + cbn [length]. fold (cnt f h). rewrite IH.
      rewrite <- (sum_one (fun t => cnt_of t f h) (actor x) ts N (H x (or_introl eq_refl))).
      f_equal. apply map_ext. intro t. unfold cnt_of, cnt. cbn [List.filter]. rewrite Ef. destruct (actor x =? t); reflexivity.
    + fold (cnt f h). rewrite IH. f_equal. apply map_ext. intro t. unfold cnt_of, cnt. cbn [List.filter]. rewrite Ef.
      now rewrite andb_false_r.
Qed.

Lemma cnt_le : forall f g h, (forall t, cnt_of t f h <= cnt_of t g h) -> cnt f h <= cnt g h.
Proof.
  intros f g h H. pose (ts := nodup Nat.eq_dec (map actor h)).
  assert (C : forall x, In x h -> In (actor x) ts) by (intros x Hx; apply nodup_In, in_map, Hx).
  rewrite (cnt_sum f h ts (NoDup_nodup _ _) C), (cnt_sum g h ts (NoDup_nodup _ _) C).
  clear C. induction ts as [|t ts IH]; [reflexivity|]. cbn [map list_sum fold_right]. specialize (H t). unfold list_sum in *. lia.
Qed.

Definition f_hit (b : nat) (x : action) : bool := match x with Return _ (Got b') => b' =? b | _ => false end.
Definition f_free (b : nat) (x : action) : bool := match x with Call _ (Deallocate b') => b' =? b | _ => false end.
Definition f_phit (b : nat) (x : action) : bool := match x with Point _ _ (Got b') => b' =? b | _ => false end.
Definition f_pfree (b : nat) (x : action) : bool := match x with Point _ (Deallocate b') _ => b' =? b | _ => false end.

Lemma cnt_of_cons : forall t f x h, cnt_of t f (x :: h) = (if (actor x =? t) && f x then 1 else 0) + cnt_of t f h.
Proof. intros t f x h. unfold cnt_of, cnt. cbn [List.filter]. destruct (_ && _); reflexivity. Qed.

Lemma track_hits : forall t b h g g', track t g h = Some g' ->
  cnt_of t (f_hit b) h <= (match g with Effective (Got b') => if b' =? b then 1 else 0 | _ => 0 end) + cnt_of t (f_phit b) h.
Proof.
  intros t b h. induction h as [|x h IH]; intros g g' E; [unfold cnt_of, cnt; cbn; lia|].
  rewrite !cnt_of_cons. destruct x as [u c|u c a|u a]; cbn [track actor f_hit f_phit] in *; destruct (u =? t); cbn [andb];
    try (specialize (IH g g' E); lia).
  - destruct g; try discriminate E. specialize (IH _ _ E). cbn in IH |- *. lia.
  - destruct g as [|c'|]; try discriminate E. destruct (call_eqb c c'); [|discriminate E]. specialize (IH _ _ E). destruct a; lia.
  - destruct g as [| |a']; try discriminate E. destruct (answer_eqb a a') eqn:Ea; [|discriminate E]. specialize (IH _ _ E). cbn iota in IH.
    destruct a as [b1| |], a' as [b2| |]; try discriminate Ea; try lia. apply Nat.eqb_eq in Ea. rewrite Ea. lia.
Qed.

Lemma track_frees : forall t b h g g', track t g h = Some g' ->
  cnt_of t (f_pfree b) h <= (match g with Pending (Deallocate b') => if b' =? b then 1 else 0 | _ => 0 end) + cnt_of t (f_free b) h.
Proof.
  intros t b h. induction h as [|x h IH]; intros g g' E; [unfold cnt_of, cnt; cbn; lia|].
  rewrite !cnt_of_cons. destruct x as [u c|u c a|u a]; cbn [track actor f_free f_pfree] in *; destruct (u =? t); cbn [andb];
    try (specialize (IH g g' E); lia).
  - destruct g; try discriminate E. specialize (IH _ _ E). destruct c; lia.
  - destruct g as [|c'|]; try discriminate E. destruct (call_eqb c c') eqn:Ec; [|discriminate E]. specialize (IH _ _ E). cbn iota in IH.
    destruct c as [|b1], c' as [|b2]; try discriminate Ec; try lia. apply Nat.eqb_eq in Ec. rewrite Ec. lia.
  - destruct g as [| |a']; try discriminate E. destruct (answer_eqb a a'); [|discriminate E]. specialize (IH _ _ E). cbn iota in IH. lia.
Qed.

Lemma filter_filter : forall (f : action -> bool) h, (forall x, is_point x = true -> f x = false) ->
  List.filter f (List.filter (fun x => negb (is_point x)) h) = List.filter f h.
Proof.
  intros f h H. induction h as [|x h IH]; [reflexivity|]. cbn [List.filter]. destruct (is_point x) eqn:Ex; cbn [negb].
  - now rewrite (H x Ex).
  - cbn [List.filter]. destruct (f x); now rewrite IH.
Qed.

Lemma count_seq : forall n b, count_occ Nat.eq_dec (seq 0 n) b <= 1.
Proof. intros n b. apply (proj1 (NoDup_count_occ Nat.eq_dec (seq 0 n)) (seq_NoDup n 0)). Qed.

Lemma linearizable_balance : forall n h b, linearizable n h -> hits b h <= 1 + frees b h.
Proof.
  intros n h b (h' & <- & T & R).
  destruct (replay (seq 0 n) h') as [st|] eqn:Er; [|congruence].
  pose proof (stack_count b h' _ _ Er) as C. pose proof (count_seq n b).
  assert (A : cnt (f_hit b) h' <= point_hits b h').
  { apply cnt_le. intro t. destruct (track t Outside h') as [g|] eqn:E; [|now destruct (T t)].
    pose proof (track_hits t b h' _ _ E) as K. exact K. }
  assert (B : point_frees b h' <= cnt (f_free b) h').
  { apply cnt_le. intro t. destruct (track t Outside h') as [g|] eqn:E; [|now destruct (T t)].
    pose proof (track_frees t b h' _ _ E) as K. exact K. }
  unfold hits, frees. rewrite !filter_filter; [|intros [u c|u c a|u a] Ex; try discriminate Ex; reflexivity..].
  unfold cnt in A, B. change (fun x => match x with Return _ (Got b') => b' =? b | _ => false end) with (f_hit b).
  change (fun x => match x with Call _ (Deallocate b') => b' =? b | _ => false end) with (f_free b). lia.
Qed.

(** ** One thread *)
Lemma call_eqb_true : forall c d, call_eqb c d = true -> c = d.
Proof. intros [|b] [|d] H; try discriminate H; [reflexivity|]. apply Nat.eqb_eq in H. now subst. Qed.
Lemma answer_eqb_true : forall a b, answer_eqb a b = true -> a = b.
Proof. intros [x| |] [y| |] H; try discriminate H; try reflexivity. apply Nat.eqb_eq in H. now subst. Qed.
Lemma call_eqb_refl : forall c, call_eqb c c = true.
Proof. intros [|b]; [reflexivity|apply Nat.eqb_refl]. Qed.
Lemma answer_eqb_refl : forall a, answer_eqb a a = true.
Proof. intros [b| |]; try reflexivity. apply Nat.eqb_refl. Qed.

Lemma points_of_callers : forall u h, (forall x, In x h -> is_point x = false -> actor x <> u) ->
  track u Outside h <> None -> forall x, In x h -> actor x <> u.
Proof.
  intros u h. induction h as [|x h IH]; intros V T y Hy; [destruct Hy|].
  assert (V' : forall x, In x h -> is_point x = false -> actor x <> u) by (intros z Hz; apply V; now right).
  assert (X : actor x <> u).
  { destruct x as [w c|w c a|w a]; try (now apply V; [left|]). cbn [actor]. intros ->. cbn [track] in T. rewrite Nat.eqb_refl in T. now apply T. }
  destruct Hy as [<-|Hy]; [exact X|]. apply IH; auto.
  destruct x as [w c|w c a|w a]; cbn [track actor] in *; destruct (Nat.eqb_spec w u); auto; congruence.
Qed.

Lemma one_thread_replay : forall t cs h st, (forall x, In x h -> actor x = t) ->
  List.filter (fun x => negb (is_point x)) h = flat_map (fun x => [Call t (fst x); Return t (snd x)]) cs ->
  track t Outside h <> None -> replay st h = stack_run st cs.
Proof.
  intros t cs. induction cs as [|[c a] cs IH]; intros h st A F T; cbn [flat_map app fst snd stack_run] in *.
  - destruct h as [|x h]; [reflexivity|]. exfalso. cbn [List.filter] in F. destruct x as [w d|w d b|w b]; try discriminate F.
    assert (w = t) as -> by (apply (A _ (or_introl eq_refl))). cbn [track] in T. rewrite Nat.eqb_refl in T. now apply T.
  - destruct h as [|x h]; [discriminate F|]. assert (actor x = t) as Ax by (apply A; now left).
    destruct x as [w d|w d b|w b]; cbn [actor] in Ax; subst w; cbn [track] in T; rewrite Nat.eqb_refl in T; try (now destruct T).
    cbn [List.filter is_point negb] in F. injection F as -> F. cbn [replay].
    destruct h as [|x h]; [discriminate F|]. assert (actor x = t) as Ax by (apply A; right; now left).
    destruct x as [w d|w d b|w b]; cbn [actor] in Ax; subst w; cbn [track] in T; rewrite Nat.eqb_refl in T; try (now destruct T).
    destruct (call_eqb d c) eqn:Ec; [|now destruct T]. apply call_eqb_true in Ec. subst d.
    cbn [List.filter is_point negb] in F.
    destruct h as [|x h]; [discriminate F|]. assert (actor x = t) as Ax by (apply A; right; right; now left).
    destruct x as [w d|w d e|w e]; cbn [actor] in Ax; subst w; cbn [track] in T; rewrite Nat.eqb_refl in T; try (now destruct T).
    destruct (answer_eqb e b) eqn:Eb; [|now destruct T]. apply answer_eqb_true in Eb. subst e.
    cbn [List.filter is_point negb] in F. injection F as -> F. cbn [replay].
    destruct (stack_step c a st) as [st'|]; [|reflexivity]. apply IH; auto. intros x Hx. apply A. right. right. now right.
Qed.

Lemma one_thread : forall n t cs,
  linearizable n (flat_map (fun x => [Call t (fst x); Return t (snd x)]) cs) <-> stack_run (seq 0 n) cs <> None.
Proof.
  intros n t cs. split.
  - intros (h & F & T & R).
    assert (A : forall x, In x h -> actor x = t).
    { intros x Hx. destruct (Nat.eq_dec (actor x) t) as [|N]; [assumption|]. exfalso.
      refine (points_of_callers (actor x) h _ (T (actor x)) x Hx eq_refl).
      intros y Hy Py E. assert (In y (flat_map (fun x => [Call t (fst x); Return t (snd x)]) cs)) as K.
      { rewrite <- F. apply filter_In. now rewrite Py. }
      apply in_flat_map in K. destruct K as ([c a] & _ & [K|[K|[]]]); subst y; cbn [actor] in E; congruence. }
    rewrite <- (one_thread_replay t cs h (seq 0 n) A F (T t)). exact R.
  - intro R. exists (flat_map (fun x => [Call t (fst x); Point t (fst x) (snd x); Return t (snd x)]) cs). split; [|split].
    + clear R. induction cs as [|[c a] cs IH]; [reflexivity|]. cbn [flat_map app List.filter is_point negb fst snd]. now rewrite IH.
    + intro u. clear R. assert (G : track u Outside (flat_map (fun x => [Call t (fst x); Point t (fst x) (snd x); Return t (snd x)]) cs) = Some Outside).
      { induction cs as [|[c a] cs IH]; [reflexivity|]. cbn [flat_map app track fst snd]. destruct (t =? u); [|exact IH].
        rewrite call_eqb_refl, answer_eqb_refl. exact IH. }
      rewrite G. discriminate.
    + assert (G : forall st, replay st (flat_map (fun x => [Call t (fst x); Point t (fst x) (snd x); Return t (snd x)]) cs) = stack_run st cs).
      { clear R. induction cs as [|[c a] cs IH]; intro st; [reflexivity|]. cbn [flat_map app replay fst snd stack_run].
        destruct (stack_step c a st); [apply IH|reflexivity]. }
      now rewrite G.
Qed.
