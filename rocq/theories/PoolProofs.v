From Coq Require Import ZArith Bool List Arith Lia Permutation.
From Verif Require Import Outcome CanFrameModel CanFrameProofs PoolModel PoolSpec.
Import ListNotations.
Open Scope Z_scope.

(** ** The free list *)

(** [chain m h l]: following [next] from [h] visits exactly the blocks [l]. *)
Fixpoint chain (m : list cell) (h : ptr) (l : list nat) : Prop :=
  match l with
  | [] => h = Null
  | b :: t => h = At b /\ exists q, nth_error m b = Some (CNext q) /\ chain m q t
  end.

Lemma replace_nth_error : forall A i j (v : A) l, (i < length l)%nat ->
  nth_error (replace_nth i v l) j = if (j =? i)%nat then Some v else nth_error l j.
Proof.
  intros A i. induction i; intros j v [|h t] H; simpl in H; try lia; simpl.
  - destruct j; reflexivity.
  - destruct j; [reflexivity|]. simpl. apply IHi. lia.
Qed.

Lemma chain_frame : forall m b v l h, ~ In b l -> (b < length m)%nat ->
  chain m h l -> chain (replace_nth b v m) h l.
Proof.
  intros m b v l. induction l as [|a t IH]; intros h Hn Hb Hc; [exact Hc|].
  destruct Hc as [-> [q [E Hc]]]. split; [reflexivity|]. exists q. simpl in Hn. split.
  - rewrite replace_nth_error by auto. destruct (Nat.eqb_spec a b); [subst; tauto|exact E].
  - apply IH; tauto.
Qed.

Lemma init_loop_length : forall i q m, length (init_loop i q m) = length m.
Proof. induction i; intros; simpl; [reflexivity|]. rewrite IHi. apply replace_nth_length. Qed.

Lemma init_loop_chain : forall i m k, (i + k = length m)%nat ->
  chain m (At i) (seq i k) -> chain (init_loop i (At i) m) (At 0) (seq 0 (length m)).
Proof.
  induction i; intros m k Hl Hc.
  - simpl in *. rewrite <- Hl. exact Hc.
  - simpl. rewrite <- (replace_nth_length _ i (CNext (At (S i))) m).
    apply (IHi _ (S k)); [rewrite replace_nth_length; lia|].
    simpl. split; [reflexivity|]. exists (At (S i)). split.
    + rewrite replace_nth_error by lia. now rewrite Nat.eqb_refl.
    + apply chain_frame; [|lia|exact Hc]. rewrite in_seq. lia.
Qed.

Lemma pool_init_chain : forall n, (0 < n)%nat ->
  length (mem (pool_init n)) = n /\ chain (mem (pool_init n)) (head (pool_init n)) (seq 0 n).
Proof.
  intros n Hn. unfold pool_init. cbn [mem head].
  set (m := replace_nth (n - 1) (CNext Null) (repeat (CData 0) n)).
  assert (Hl : length m = n) by (unfold m; now rewrite replace_nth_length, repeat_length).
  split; [now rewrite init_loop_length|].
  replace (seq 0 n) with (seq 0 (length m)) by (now rewrite Hl).
  apply (init_loop_chain (n - 1) m 1); [lia|]. simpl. split; [reflexivity|]. exists Null. split; [|reflexivity].
  unfold m. rewrite replace_nth_error by (rewrite repeat_length; lia). now rewrite Nat.eqb_refl.
Qed.

(** ** Invariant of all histories *)

Record Inv (n : nat) (tr : trace) (p : pool) : Prop := {
  inv_len : length (mem p) = n;
  inv_chain : chain (mem p) (head p) (lifo n tr);
  inv_nodup : NoDup (lifo n tr ++ outstanding tr);
  inv_all : forall b, In b (lifo n tr ++ outstanding tr) <-> (b < n)%nat;
  inv_data : forall b v, In b (outstanding tr) -> last_written tr b = Some v -> nth_error (mem p) b = Some (CData v)
}.

Lemma remove_in_iff : forall b x l, In x (remove Nat.eq_dec b l) <-> In x l /\ x <> b.
Proof.
  intros. split.
  - apply in_remove.
  - intros [H1 H2]. now apply in_in_remove.
Qed.

Lemma remove_nodup : forall b l, NoDup l -> NoDup (remove Nat.eq_dec b l).
Proof.
  intros b l H. induction H as [|x l Hx Hd IH]; simpl; [constructor|].
  destruct (Nat.eq_dec b x); [exact IH|]. constructor; [|exact IH]. rewrite remove_in_iff. tauto.
Qed.

Lemma nodup_app_iff : forall (l1 l2 : list nat),
  NoDup (l1 ++ l2) <-> NoDup l1 /\ NoDup l2 /\ (forall x, In x l1 -> ~ In x l2).
Proof.
  induction l1 as [|a l1 IH]; intros l2; simpl.
  - split; [intros H; repeat split; auto; constructor|intros [_ [H _]]; exact H].
  - rewrite !NoDup_cons_iff, IH, in_app_iff. split.
    + intros [H1 [H2 [H3 H4]]]. repeat split; auto. intros x [->|Hx]; auto.
    + intros [[H1 H2] [H3 H4]]. repeat split; auto. intros [Hx|Hx]; [auto|]. apply (H4 a); auto.
Qed.

Lemma alloc_loop_eq : forall exc k p, alloc_loop exc k p = alloc_loop exc 0 p.
Proof.
  intros exc k p. induction k; [reflexivity|]. simpl. destruct (head p) eqn:Eh; try reflexivity.
  destruct (nth_error (mem p) b) eqn:En; [|reflexivity]. rewrite IHk. simpl. now rewrite Eh, En.
Qed.

Lemma inv_init : forall n, (0 < n)%nat -> Inv n [] (pool_init n).
Proof.
  intros n Hn. destruct (pool_init_chain n Hn) as [Hl Hc]. constructor; auto.
  - cbn [lifo outstanding]. rewrite app_nil_r. apply seq_NoDup.
  - intros b. cbn [lifo outstanding]. rewrite app_nil_r, in_seq. lia.
  - intros b v [].
Qed.

(** allocate in a state satisfying the invariant. *)
Lemma inv_alloc : forall n bs exc tr p size k, Inv n tr p ->
  allocate bs exc size k p =
    if size <=? bs
    then match lifo n tr with
         | [] => Ret (alloc_failed exc, p)
         | b :: _ => match nth_error (mem p) b with
                     | Some c => Ret (OPtr (At b), Pool (mem p) (as_ptr c))
                     | None => UB
                     end
         end
    else Ret (alloc_failed exc, p).
Proof.
  intros n bs exc tr p size k I. unfold allocate. destruct (size <=? bs); [|reflexivity].
  rewrite alloc_loop_eq. simpl. pose proof (inv_chain _ _ _ I) as Hc.
  destruct (lifo n tr) as [|b t]; simpl in Hc.
  - rewrite Hc. reflexivity.
  - destruct Hc as [-> _]. reflexivity.
Qed.

Lemma chain_head_cell : forall m h b t, chain m h (b :: t) ->
  exists q, h = At b /\ nth_error m b = Some (CNext q) /\ chain m q t.
Proof. intros m h b t [H [q [H1 H2]]]. eauto. Qed.

Lemma inv_lt : forall n tr p b, Inv n tr p -> In b (outstanding tr) -> (b < length (mem p))%nat.
Proof. intros n tr p b I H. rewrite (inv_len _ _ _ I). apply (inv_all _ _ _ I). apply in_app_iff. auto. Qed.

Lemma inv_step : forall n bs exc tr p o, Inv n tr p -> legal tr o ->
  exists r p', step bs exc o p = Ret (r, p') /\ Inv n ((o, r) :: tr) p'.
Proof.
  intros n bs exc tr p o I L.
  pose proof (inv_len _ _ _ I) as Hlen. pose proof (inv_chain _ _ _ I) as Hc.
  pose proof (inv_nodup _ _ _ I) as Hnd. pose proof (inv_all _ _ _ I) as Hall.
  pose proof (inv_data _ _ _ I) as Hdata.
  destruct o as [size k|q|b v|b]; simpl step.
  - (* Alloc *)
    assert (Hfail : exists r p', Ret (alloc_failed exc, p) = Ret (r, p') /\ Inv n ((Alloc size k, r) :: tr) p').
    { exists (alloc_failed exc), p. split; [reflexivity|]. destruct exc; constructor; auto. }
    rewrite (inv_alloc n bs exc tr) by exact I. destruct (size <=? bs); [|exact Hfail].
    destruct (lifo n tr) as [|b t] eqn:El; [exact Hfail|].
    destruct (chain_head_cell _ _ _ _ Hc) as [q [Eh [En Ht]]]. rewrite En.
    do 2 eexists. split; [reflexivity|].
    assert (Hb : ~ In b (outstanding tr)).
    { intros Hb. simpl in Hnd. rewrite NoDup_cons_iff, in_app_iff in Hnd. tauto. }
    constructor; cbn [mem head outstanding lifo last_written]; rewrite ?El; cbn [tl].
    + exact Hlen.
    + exact Ht.
    + apply Permutation_NoDup with (l := (b :: t) ++ outstanding tr); [|exact Hnd].
      simpl. apply Permutation_middle.
    + intros x. rewrite <- Hall. simpl. rewrite !in_app_iff. simpl. tauto.
    + intros x v Hx. destruct (Nat.eqb_spec x b); [discriminate|]. destruct Hx as [Hx|Hx]; [congruence|]. apply Hdata. exact Hx.
  - (* Free *)
    destruct q as [|b|z]; simpl in L; try contradiction.
    + simpl. do 2 eexists. split; [reflexivity|]. constructor; auto.
    + simpl. pose proof (inv_lt _ _ _ _ I L) as Hb. apply Nat.ltb_lt in Hb as Hb'. rewrite Hb'. simpl.
      do 2 eexists. split; [reflexivity|].
      assert (Hbl : ~ In b (lifo n tr)).
      { intros Hx. rewrite nodup_app_iff in Hnd. destruct Hnd as [_ [_ Hd]]. now apply (Hd b). }
      constructor; cbn [mem head outstanding lifo last_written].
      * now rewrite replace_nth_length.
      * split; [reflexivity|]. exists (head p). split.
        -- rewrite replace_nth_error by exact Hb. now rewrite Nat.eqb_refl.
        -- apply chain_frame; auto.
      * rewrite nodup_app_iff in *. destruct Hnd as [N1 [N2 N3]]. repeat split.
        -- constructor; auto.
        -- now apply remove_nodup.
        -- intros x [<-|Hx]; rewrite remove_in_iff; [tauto|]. intros [Hy _]. now apply (N3 x).
      * intros x. rewrite <- Hall. simpl. rewrite !in_app_iff, remove_in_iff.
        destruct (Nat.eq_dec b x); [subst; tauto|]. split; [intros [?|[?|[? ?]]]|intros [?|?]]; try tauto.
        right. right. split; auto.
      * intros x v Hx Hw. rewrite remove_in_iff in Hx. rewrite replace_nth_error by exact Hb.
        destruct (Nat.eqb_spec x b); [tauto|]. apply Hdata; tauto.
  - (* Write *)
    simpl in L. pose proof (inv_lt _ _ _ _ I L) as Hb. apply Nat.ltb_lt in Hb as Hb'. rewrite Hb'.
    do 2 eexists. split; [reflexivity|].
    assert (Hbl : ~ In b (lifo n tr)).
    { intros Hx. rewrite nodup_app_iff in Hnd. destruct Hnd as [_ [_ Hd]]. now apply (Hd b). }
    constructor; cbn [mem head outstanding lifo last_written]; auto.
    + now rewrite replace_nth_length.
    + apply chain_frame; auto.
    + intros x w Hx Hw. rewrite replace_nth_error by exact Hb.
      destruct (Nat.eqb_spec x b); [congruence|]. apply Hdata; auto.
  - (* Read *)
    simpl in L. pose proof (inv_lt _ _ _ _ I L) as Hb.
    destruct (nth_error (mem p) b) eqn:En; [|apply nth_error_None in En; lia].
    do 2 eexists. split; [reflexivity|]. constructor; auto.
Qed.

Lemma history_inv : forall n bs exc tr p, (0 < n)%nat -> history n bs exc tr p -> Inv n tr p.
Proof.
  intros n bs exc tr p Hn H. induction H as [|tr p o r p' H IH L E]; [now apply inv_init|].
  destruct (inv_step n bs exc tr p o IH L) as [r2 [p2 [E2 I2]]]. rewrite E in E2. injection E2 as <- <-. exact I2.
Qed.

(** ** Consequences *)

Lemma history_safe : forall n bs exc tr p o, (0 < n)%nat -> history n bs exc tr p -> legal tr o ->
  exists r p', step bs exc o p = Ret (r, p').
Proof.
  intros n bs exc tr p o Hn H L. destruct (inv_step n bs exc tr p o (history_inv _ _ _ _ _ Hn H) L) as [r [p' [E _]]]. eauto.
Qed.

Lemma alloc_result : forall n bs exc tr p size k r p', (0 < n)%nat -> history n bs exc tr p ->
  step bs exc (Alloc size k) p = Ret (r, p') ->
  r = if size <=? bs then match lifo n tr with b :: _ => OPtr (At b) | [] => alloc_failed exc end else alloc_failed exc.
Proof.
  intros n bs exc tr p size k r p' Hn H E. pose proof (history_inv _ _ _ _ _ Hn H) as I.
  simpl in E. rewrite (inv_alloc n bs exc tr) in E by exact I.
  destruct (size <=? bs); [|injection E as <- _; reflexivity].
  destruct (lifo n tr) as [|b t] eqn:El; [injection E as <- _; reflexivity|].
  pose proof (inv_chain _ _ _ I) as Hc. rewrite El in Hc. destruct (chain_head_cell _ _ _ _ Hc) as [q [_ [En _]]].
  rewrite En in E. injection E as <- _. reflexivity.
Qed.

Lemma lengths_add : forall n tr p, Inv n tr p -> (length (lifo n tr) + length (outstanding tr) = n)%nat.
Proof.
  intros n tr p I. rewrite <- app_length.
  replace n with (length (seq 0 n)) at 2 by apply seq_length. apply Permutation_length.
  apply NoDup_Permutation; [apply (inv_nodup _ _ _ I)|apply seq_NoDup|].
  intros x. rewrite (inv_all _ _ _ I), in_seq. lia.
Qed.

Lemma alloc_fresh : forall n bs exc tr p size k b p', (0 < n)%nat -> history n bs exc tr p ->
  step bs exc (Alloc size k) p = Ret (OPtr (At b), p') ->
  (b < n)%nat /\ ~ In b (outstanding tr) /\ size <= bs.
Proof.
  intros n bs exc tr p size k b p' Hn H E. pose proof (history_inv _ _ _ _ _ Hn H) as I.
  apply (alloc_result n bs exc tr) in E; auto.
  destruct (Z.leb_spec size bs); [|destruct exc; discriminate].
  destruct (lifo n tr) as [|b' t] eqn:El; [destruct exc; discriminate|]. injection E as <-.
  pose proof (inv_nodup _ _ _ I) as Hnd. rewrite nodup_app_iff in Hnd. destruct Hnd as [_ [_ Hd]].
  split; [|split; [|exact H0]].
  - apply (inv_all _ _ _ I). apply in_app_iff. left. rewrite El. now left.
  - apply Hd. rewrite El. now left.
Qed.

Lemma outstanding_nodup : forall n bs exc tr p, (0 < n)%nat -> history n bs exc tr p ->
  NoDup (outstanding tr) /\ (forall b, In b (outstanding tr) -> (b < n)%nat) /\ (length (outstanding tr) <= n)%nat.
Proof.
  intros n bs exc tr p Hn H. pose proof (history_inv _ _ _ _ _ Hn H) as I.
  pose proof (inv_nodup _ _ _ I) as Hnd. rewrite nodup_app_iff in Hnd. pose proof (lengths_add _ _ _ I).
  repeat split; [tauto| |lia]. intros b Hb. apply (inv_all _ _ _ I). apply in_app_iff. auto.
Qed.

Lemma alloc_refused_iff : forall n bs exc tr p size k r p', (0 < n)%nat -> history n bs exc tr p ->
  step bs exc (Alloc size k) p = Ret (r, p') ->
  (refused r <-> bs < size \/ length (outstanding tr) = n).
Proof.
  intros n bs exc tr p size k r p' Hn H E. pose proof (history_inv _ _ _ _ _ Hn H) as I.
  apply (alloc_result n bs exc tr) in E; auto. pose proof (lengths_add _ _ _ I) as Hl.
  assert (Hf : refused (alloc_failed exc)) by (destruct exc; [right|left]; reflexivity).
  destruct (Z.leb_spec size bs).
  - destruct (lifo n tr) as [|b t]; simpl in Hl; subst r; split; intros C; auto.
    + destruct C as [C|C]; discriminate.
    + lia.
  - subst r. split; auto.
Qed.

Lemma read_back : forall n bs exc tr p b v r p', (0 < n)%nat -> history n bs exc tr p ->
  In b (outstanding tr) -> last_written tr b = Some v -> step bs exc (Read b) p = Ret (r, p') -> r = OData (CData v).
Proof.
  intros n bs exc tr p b v r p' Hn H Hb Hw E. pose proof (history_inv _ _ _ _ _ Hn H) as I.
  simpl in E. rewrite (inv_data _ _ _ I b v Hb Hw) in E. now injection E as <- _.
Qed.

Lemma allocs_succeed : forall n bs exc sz k tr p, (0 < n)%nat -> sz <= bs -> history n bs exc tr p ->
  (length (outstanding tr) + k <= n)%nat ->
  exists tr' p', continues n bs exc tr p (allocs k sz) tr' p' /\ history n bs exc tr' p' /\
    length (outstanding tr') = (length (outstanding tr) + k)%nat.
Proof.
  intros n bs exc sz k. induction k as [|k IH]; intros tr p Hn Hs H Hk.
  - exists tr, p. split; [constructor|]. split; [exact H|lia].
  - destruct (history_safe n bs exc tr p (Alloc sz 0) Hn H I) as [r [p1 E]].
    pose proof (alloc_refused_iff _ _ _ _ _ _ _ _ _ Hn H E) as Hr.
    pose proof (alloc_result _ _ _ _ _ _ _ _ _ Hn H E) as Hres.
    rewrite (proj2 (Z.leb_le sz bs)) in Hres by exact Hs.
    pose proof (history_inv _ _ _ _ _ Hn H) as I'. pose proof (lengths_add _ _ _ I') as Hl.
    destruct (lifo n tr) as [|b t] eqn:El; simpl in Hl; [lia|]. subst r.
    assert (H1 : history n bs exc ((Alloc sz 0, OPtr (At b)) :: tr) p1) by (econstructor; eauto; exact Logic.I).
    destruct (IH _ _ Hn Hs H1) as [tr' [p' [C [H' L']]]]; [simpl; lia|].
    exists tr', p'. split; [econstructor; eauto|]. split; [exact H'|]. simpl in L'. lia.
Qed.

Lemma double_free : forall n bs exc tr p b, (0 < n)%nat -> history n bs exc tr p -> In b (outstanding tr) ->
  exists p1 p2, step bs exc (Free (At b)) p = Ret (ONone, p1) /\ step bs exc (Free (At b)) p1 = Ret (ONone, p2) /\
    forall size k, size <= bs -> step bs exc (Alloc size k) p2 = Ret (OPtr (At b), p2).
Proof.
  intros n bs exc tr p b Hn H Hb. pose proof (inv_lt _ _ _ _ (history_inv _ _ _ _ _ Hn H) Hb) as L.
  set (p1 := Pool (replace_nth b (CNext (head p)) (mem p)) (At b)).
  assert (L1 : (b < length (mem p1))%nat) by (cbn; now rewrite replace_nth_length).
  exists p1, (Pool (replace_nth b (CNext (At b)) (mem p1)) (At b)). split; [|split].
  - cbn [step deallocate]. rewrite (proj2 (Nat.ltb_lt _ _) L). reflexivity.
  - cbn [step deallocate]. rewrite (proj2 (Nat.ltb_lt _ _) L1). reflexivity.
  - intros size k S. cbn [step]. unfold allocate. rewrite (proj2 (Z.leb_le _ _) S), alloc_loop_eq. cbn [alloc_loop head mem].
    rewrite replace_nth_error by exact L1. rewrite Nat.eqb_refl. reflexivity.
Qed.

(** Freeing a free block ties the blocks above it into a ring. *)
Lemma chain_next : forall m above b below h i, chain m h (above ++ b :: below) -> (i < length above)%nat ->
  nth_error m (nth i above O) = Some (CNext (At (nth (S i) (above ++ [b]) O))).
Proof.
  intros m above. induction above as [|a t IH]; intros b below h i C L; [cbn in L; lia|].
  cbn [app] in C. destruct (chain_head_cell _ _ _ _ C) as [q [_ [E C']]]. destruct i as [|i].
  - cbn [nth app]. rewrite E. destruct t as [|a' t']; cbn [app] in C'; destruct (chain_head_cell _ _ _ _ C') as [q' [-> _]]; reflexivity.
  - change (nth (S i) (a :: t) O) with (nth i t O). change (nth (S (S i)) ((a :: t) ++ [b]) O) with (nth (S i) (t ++ [b]) O).
    apply (IH b below q); [exact C'|cbn in L; lia].
Qed.

Lemma ring_next : forall m above b below h j, chain m h (above ++ b :: below) -> NoDup (above ++ b :: below) -> (b < length m)%nat ->
  nth_error (replace_nth b (CNext h) m) (nth (j mod S (length above)) (b :: above) O)
    = Some (CNext (At (nth (S j mod S (length above)) (b :: above) O))).
Proof.
  intros m above b below h j C N L. set (w := S (length above)).
  assert (Hw : (w <> 0)%nat) by (unfold w; lia).
  pose proof (Nat.mod_upper_bound j w Hw) as B.
  assert (Sj : (S j mod w = if (S (j mod w) =? w) then 0 else S (j mod w))%nat).
  { pose proof (Nat.div_mod j w Hw) as D. destruct (Nat.eqb_spec (S (j mod w)) w) as [E|E].
    - symmetry. apply (Nat.mod_unique _ _ (S (j / w))); [lia|]. nia.
    - symmetry. apply (Nat.mod_unique _ _ (j / w)); lia. }
  rewrite Sj. rewrite replace_nth_error by exact L. destruct (j mod w)%nat as [|i] eqn:Ej.
  - cbn [nth]. rewrite Nat.eqb_refl. f_equal. f_equal.
    destruct above as [|a t]; unfold w.
    + cbn. destruct C as [-> _]. reflexivity.
    + cbn. destruct C as [-> _]. reflexivity.
  - assert (Li : (i < length above)%nat) by (unfold w in B; lia).
    change (nth (S i) (b :: above) O) with (nth i above O).
    assert (Hne : nth i above O <> b).
    { intros Eb. apply (NoDup_remove_2 _ _ _ N). apply in_app_iff. left. rewrite <- Eb. now apply nth_In. }
    apply Nat.eqb_neq in Hne. rewrite Hne. rewrite (chain_next m above b below h i C Li).
    f_equal. f_equal. f_equal. destruct (Nat.eqb_spec (S (S i)) w) as [E|E].
    + cbn [nth]. assert (S i = length above) as -> by (unfold w in E; lia). rewrite app_nth2, Nat.sub_diag by lia. reflexivity.
    + change (nth (S (S i)) (b :: above) O) with (nth (S i) above O). apply app_nth1. unfold w in *. lia.
Qed.

Lemma ring_serves : forall bs exc n sz k m above b below h j tr, sz <= bs ->
  chain m h (above ++ b :: below) -> NoDup (above ++ b :: below) -> (b < length m)%nat ->
  let m' := replace_nth b (CNext h) m in
  exists p', continues n bs exc tr (Pool m' (At (nth (j mod S (length above)) (b :: above) O))) (allocs k sz)
    (rev (served sz (map (fun i => nth (i mod S (length above)) (b :: above) O) (seq j k))) ++ tr) p'.
Proof.
  intros bs exc n sz k m above b below h. induction k as [|k IH]; intros j tr Hs C N L m'.
  - eexists. apply cont_nil.
  - destruct (IH (S j) ((Alloc sz 0, OPtr (At (nth (j mod S (length above)) (b :: above) O))) :: tr) Hs C N L) as [p' R].
    exists p'. cbn [allocs]. cbn [seq map served rev]. rewrite <- app_assoc. cbn [app].
    refine (cont_cons n bs exc _ _ _ _ _ _ _ _ _ R). cbn [step]. unfold allocate.
    rewrite (proj2 (Z.leb_le _ _) Hs). cbn [alloc_loop head mem]. unfold m'.
    rewrite (ring_next m above b below h j C N L). reflexivity.
Qed.

Lemma free_again : forall n bs exc tr p b, (0 < n)%nat -> history n bs exc tr p -> (b < n)%nat -> ~ In b (outstanding tr) ->
  exists above below p1, lifo n tr = above ++ b :: below /\ step bs exc (Free (At b)) p = Ret (ONone, p1) /\
    forall sz k, sz <= bs -> exists p2,
      continues n bs exc ((Free (At b), ONone) :: tr) p1 (allocs k sz)
        (rev (served sz (over_and_over (b :: above) k)) ++ (Free (At b), ONone) :: tr) p2.
Proof.
  intros n bs exc tr p b Hn H Hb Hf. pose proof (history_inv _ _ _ _ _ Hn H) as V.
  assert (Hl : In b (lifo n tr)) by (apply (inv_all _ _ _ V) in Hb; apply in_app_iff in Hb; tauto).
  apply in_split in Hl. destruct Hl as [above [below El]].
  pose proof (inv_chain _ _ _ V) as C. pose proof (proj1 (proj1 (nodup_app_iff _ _) (inv_nodup _ _ _ V))) as N.
  rewrite El in C, N. assert (L : (b < length (mem p))%nat) by (rewrite (inv_len _ _ _ V); exact Hb).
  exists above, below, (Pool (replace_nth b (CNext (head p)) (mem p)) (At b)).
  split; [exact El|]. split.
  - cbn [step deallocate]. rewrite (proj2 (Nat.ltb_lt _ _) L). reflexivity.
  - intros sz k Hs.
    pose proof (ring_serves bs exc n sz k (mem p) above b below (head p) 0 ((Free (At b), ONone) :: tr) Hs C N L) as R.
    cbv zeta in R. rewrite Nat.mod_0_l in R by lia. exact R.
Qed.

(** ** Layout *)

Lemma stride_props : forall bs ps ma al, 0 < bs -> 0 < al ->
  bs <= block_stride bs ps ma al /\ ps <= block_stride bs ps ma al /\ (al | block_stride bs ps ma al).
Proof.
  intros bs ps ma al Hb Ha. unfold block_stride.
  set (x := Z.max bs (Z.max ps ma)).
  pose proof (Z.div_mod (x + al - 1) al ltac:(lia)). pose proof (Z.mod_pos_bound (x + al - 1) al ltac:(lia)).
  assert (x <= (x + al - 1) / al * al) by nia.
  repeat split; try (unfold x in *; lia). exists ((x + al - 1) / al). reflexivity.
Qed.

Lemma layout : forall n bs ps ma al esz base i j,
  0 < bs -> 0 < al -> block_stride bs ps ma al <= esz -> (al | base) -> (i < n)%nat -> (j < n)%nat -> i <> j ->
  let s := block_stride bs ps ma al in
  base <= block_address base s i /\ block_address base s i + bs <= base + Z.of_nat n * esz /\
  (al | block_address base s i) /\
  (block_address base s i + bs <= block_address base s j \/ block_address base s j + bs <= block_address base s i).
Proof.
  intros n bs ps ma al esz base i j Hb Ha He Hd Hi Hj Hij s.
  destruct (stride_props bs ps ma al Hb Ha) as [H1 [H2 H3]]. fold s in H1, H2, H3, He.
  unfold block_address. repeat split.
  - nia.
  - nia.
  - apply Z.divide_add_r; [exact Hd|]. apply Z.divide_mul_r. exact H3.
  - destruct (Nat.lt_total i j) as [L|[L|L]]; [left|lia|right]; nia.
Qed.
