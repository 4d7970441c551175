(** Proofs about coverage. *)
From Coq Require Import ZArith Bool List Lia.
From Verif Require Import LcovModel LcovSpec.
Import ListNotations.
Open Scope Z_scope.

Lemma executes_app : forall hits under a b s, executes hits under (a ++ b) s = executes hits under b (executes hits under a s).
Proof. intros hits under a. induction a as [| c a IH]; intros b s; [reflexivity |]. cbn [app executes]. apply IH. Qed.

Lemma put_same : forall f t i, put f t i t = i.
Proof. intros. unfold put. now rewrite Nat.eqb_refl. Qed.
Lemma put_other : forall f t u i, u <> t -> put f t i u = f u.
Proof. intros f t u i H. unfold put. destruct (Nat.eqb_spec u t); congruence. Qed.

(** The counters. *)
Lemma counters_since : forall hits under cs s runs, (exists t, In (Zero t) cs) \/ (forall l, counters s l = together hits runs l) ->
  forall l, counters (executes hits under cs s) l = together hits (since_zero cs runs) l.
Proof.
  intros hits under cs. induction cs as [| c cs IH]; intros s runs H l.
  - destruct H as [(t & []) | H]. apply H.
  - destruct c; cbn [executes execute since_zero]; apply IH; cbn [counters].
    + right. reflexivity.
    + destruct H as [(t0 & [E | I]) | H]; [discriminate E | left; eauto | right; assumption].
    + destruct H as [(t0 & [E | I]) | H]; [discriminate E | left; eauto |]. right. intros l0. rewrite H. cbn [together fold_right].
      change (fold_right (fun t n => hits t l0 + n) 0 runs) with (together hits runs l0). lia.
    + destruct H as [(t0 & [E | I]) | H]; [discriminate E | left; eauto | right; assumption].
    + destruct H as [(t0 & [E | I]) | H]; [discriminate E | left; eauto | right; assumption].
    + destruct H as [(t0 & [E | I]) | H]; [discriminate E | left; eauto | right; assumption].
Qed.

(** The baseline is all zeros once it has been made. *)
Lemma baseline_zero : forall hits under cs s,
  (exists t, In (Baseline t) cs) \/ (exists b, baseline s = Some b /\ forall l, b l = 0) ->
  exists b, baseline (executes hits under cs s) = Some b /\ forall l, b l = 0.
Proof.
  intros hits under cs. induction cs as [| c cs IH]; intros s H.
  - destruct H as [(t & []) | H]. exact H.
  - cbn [executes]. apply IH. destruct c; cbn [execute baseline];
      try (destruct H as [(t0 & [E | I]) | H]; [discriminate E | left; eauto | right; assumption]).
    right. eexists. split; reflexivity.
Qed.

(** Commands of others leave a test's files alone. *)
Lemma others_keep : forall hits under t cs s, List.filter (fun c => Nat.eqb (owner c) t) cs = [] ->
  test_info (executes hits under cs s) t = test_info s t /\ combined (executes hits under cs s) t = combined s t /\
  filtered (executes hits under cs s) t = filtered s t.
Proof.
  intros hits under t cs. induction cs as [| c cs IH]; intros s F; [repeat split |].
  cbn [List.filter] in F. destruct (Nat.eqb_spec (owner c) t) as [E | N]; [discriminate F |].
  cbn [executes]. destruct (IH (execute hits under c s) F) as (A & B & D). rewrite A, B, D.
  destruct c; cbn [execute test_info combined filtered owner] in *; rewrite ?put_other by congruence; repeat split.
Qed.

(** A list whose owned part begins with a command. *)
Lemma owned_split : forall (p : command -> bool) c cs rest, List.filter p cs = c :: rest ->
  exists a b, cs = a ++ c :: b /\ List.filter p a = [] /\ List.filter p b = rest /\ p c = true.
Proof.
  intros p c cs. induction cs as [| d cs IH]; intros rest F; [discriminate F |]. cbn [List.filter] in F.
  destruct (p d) eqn:P.
  - inversion F; subst. exists [], cs. repeat split; assumption.
  - destruct (IH rest F) as (a & b & -> & A & B & C). exists (d :: a), b. cbn [app List.filter]. rewrite P. repeat split; assumption.
Qed.

Lemma file_exact : forall hits under ts cs s t a b, schedule ts cs -> In t ts -> cs = a ++ Capture t :: b ->
  reports (filtered (executes hits under cs s) t) under (together hits (since_zero a [])).
Proof.
  intros hits under ts cs s t a b Sc It E.
  pose proof (Sc t) as F. destruct (in_dec Nat.eq_dec t ts) as [_ | N]; [| contradiction].
  rewrite E, filter_app in F. cbn [List.filter owner] in F. rewrite Nat.eqb_refl in F. unfold recipe in F.
  set (p := fun c => Nat.eqb (owner c) t) in *.
  assert (forall x, List.filter p x <> [] -> True) as _ by trivial.
  (* the recipe has one Capture *)
  assert (List.filter p a = [Zero t; Baseline t; Run t] /\ List.filter p b = [Combine t; Extract t]) as [Fa Fb].
  { destruct (List.filter p a) as [| c0 x]; [discriminate F |]. inversion F as [[E0 F0]]. clear F. subst c0.
    destruct x as [| c1 x]; [discriminate F0 |]. inversion F0 as [[E1 F1]]. clear F0. subst c1.
    destruct x as [| c2 x]; [discriminate F1 |]. inversion F1 as [[E2 F2]]. clear F1. subst c2.
    destruct x as [| c3 x]; [inversion F2; split; reflexivity |]. inversion F2 as [[E3 F3]]. clear F2. subst c3.
    destruct x as [| c4 x]; [discriminate F3 |]. inversion F3 as [[E4 F4]]. clear F3. subst c4.
    destruct x as [| c5 x]; [discriminate F4 |]. inversion F4 as [[E5 F5]]. subst c5. destruct x; discriminate F5. }
  assert (In (Zero t) a) as Iz.
  { assert (In (Zero t) (List.filter p a)) as I by (rewrite Fa; now left). apply filter_In in I. apply I. }
  assert (In (Baseline t) a) as Ib.
  { assert (In (Baseline t) (List.filter p a)) as I by (rewrite Fa; right; now left). apply filter_In in I. apply I. }
  subst cs. rewrite executes_app. cbn [executes].
  set (s1 := executes hits under a s).
  assert (forall l, counters s1 l = together hits (since_zero a []) l) as C1 by (apply counters_since; left; eauto).
  destruct (baseline_zero hits under a s (or_introl (ex_intro _ t Ib))) as (bl & B1 & B0). fold s1 in B1.
  destruct (owned_split p _ b _ Fb) as (b1 & b2 & -> & Fb1 & Fb2 & _).
  destruct (owned_split p _ b2 _ Fb2) as (b3 & b4 & -> & Fb3 & Fb4 & _).
  set (s2 := execute hits under (Capture t) s1).
  assert (test_info s2 t = Some (counters s1)) as T2 by (unfold s2; cbn [execute test_info]; apply put_same).
  rewrite executes_app. cbn [executes].
  set (s3 := executes hits under b1 s2).
  destruct (others_keep hits under t b1 s2 Fb1) as (T3 & _ & _). fold s3 in T3.
  assert (exists b0, baseline s3 = Some b0 /\ forall l, b0 l = 0) as (bl3 & B3 & B30).
  { apply baseline_zero. right. exists bl. split; [exact B1 | exact B0]. }
  set (s4 := execute hits under (Combine t) s3).
  assert (combined s4 t = Some (fun l => bl3 l + counters s1 l)) as C4.
  { unfold s4. cbn [execute combined]. rewrite put_same, B3, T3, T2. reflexivity. }
  rewrite executes_app. cbn [executes].
  set (s5 := executes hits under b3 s4).
  destruct (others_keep hits under t b3 s4 Fb3) as (_ & C5 & _). fold s5 in C5.
  set (s6 := execute hits under (Extract t) s5).
  destruct (others_keep hits under t b4 s6 Fb4) as (_ & _ & F7).
  unfold reports. rewrite F7. unfold s6. cbn [execute filtered]. rewrite put_same, C5, C4.
  eexists. split; [reflexivity |]. intros l. cbv beta. destruct (under l); [| reflexivity]. rewrite B30, C1. lia.
Qed.

Lemma one_by_one_schedule : forall ts, NoDup ts -> schedule ts (one_by_one ts).
Proof.
  intros ts H t. unfold one_by_one. induction H as [| u ts N H IH]; [reflexivity |].
  cbn [flat_map]. rewrite filter_app. rewrite IH. unfold recipe at 1. cbn [List.filter owner].
  destruct (Nat.eqb_spec u t) as [-> | D].
  - destruct (in_dec Nat.eq_dec t ts) as [C | _]; [contradiction |].
    destruct (in_dec Nat.eq_dec t (t :: ts)) as [_ | C]; [reflexivity | exfalso; apply C; now left].
  - cbn [app]. destruct (in_dec Nat.eq_dec t ts) as [C | C]; destruct (in_dec Nat.eq_dec t (u :: ts)) as [K | K]; try reflexivity.
    + exfalso. apply K. now right.
    + destruct K as [K | K]; congruence.
Qed.

Lemma since_zero_app : forall a t b runs, since_zero (a ++ Zero t :: b) runs = since_zero b [].
Proof.
  induction a as [| c a IH]; intros t b runs; [reflexivity |]. cbn [app]. destruct c; cbn [since_zero]; apply IH.
Qed.

Lemma one_by_one_file : forall hits under ts s t, NoDup ts -> In t ts ->
  reports (filtered (executes hits under (one_by_one ts) s) t) under (hits t).
Proof.
  intros hits under ts s t H I.
  destruct (in_split t ts I) as (x & y & E).
  assert (one_by_one ts = (one_by_one x ++ [Zero t; Baseline t; Run t]) ++ Capture t :: ([Combine t; Extract t] ++ one_by_one y)) as Q.
  { rewrite E. unfold one_by_one. rewrite flat_map_app. cbn [flat_map recipe]. rewrite <- app_assoc. reflexivity. }
  destruct (file_exact hits under ts (one_by_one ts) s t _ _ (one_by_one_schedule ts H) I Q) as (i & F & R).
  exists i. split; [assumption |]. intros l. rewrite R. destruct (under l); [| reflexivity].
  rewrite since_zero_app. cbn [since_zero together fold_right]. lia.
Qed.

Lemma all_reports : forall under files ts (what : nat -> info), (forall t, In t ts -> reports (filtered files t) under (what t)) ->
  reports (all_info ts files) under (fun l => fold_right (fun t n => what t l + n) 0 ts).
Proof.
  intros under files ts what. induction ts as [| t ts IH]; intros H.
  - exists (fun _ => 0). split; [reflexivity |]. intros l. cbn. now destruct (under l).
  - destruct (H t (or_introl eq_refl)) as (i & E & R). destruct IH as (j & F & Q); [intros u Hu; apply H; now right |].
    cbn [all_info]. rewrite E, F. cbn [added]. eexists. split; [reflexivity |]. intros l. cbv beta. rewrite R, Q. cbn [fold_right].
    destruct (under l); lia.
Qed.

(** ** Incremental builds *)

(** What they executed at the first build since the outputs were last removed, if there was one. *)
Fixpoint first_built (es : list action) (hits : nat -> info) (first : option (nat -> info)) : option (nat -> info) :=
  match es with
  | [] => first
  | Edit t h :: es => first_built es (fun u => if Nat.eqb u t then h else hits u) first
  | Make :: es => first_built es hits (match first with Some f => Some f | None => Some hits end)
  | Clean :: es => first_built es hits None
  end.

(** What holds of the directory after actions by which the tests execute [hits] and did so as [first] at the first build. *)
Definition tree_inv (under : nat -> bool) (ts : list nat) (s : tree) (hits : nat -> info) (first : option (nat -> info)) : Prop :=
  (forall t, test_hits s t = hits t) /\
  (forall t, (built s t <= clock s)%nat) /\
  (forall t ft, In t ts -> filtered_time s t = Some ft ->
     (ft <= clock s)%nat /\ ((built s t <= ft)%nat -> reports (filtered (dir s) t) under (hits t))) /\
  match first with
  | None => all_time s = None /\ cov_time s = None
  | Some f => exists a c, all_time s = Some a /\ cov_time s = Some c /\ (a <= c <= clock s)%nat /\
      reports (all_file s) under (total ts f) /\ reports (cov_file s) under (total ts f)
  end.

Lemma stale_file : forall under ts s hits first t, NoDup ts -> tree_inv under ts s hits first -> In t ts ->
  reports (filtered (dir (make_cov under ts s)) t) under (hits t).
Proof.
  intros under ts s hits first t N (H1 & H2 & H3 & _) I. cbn [make_cov dir].
  set (st := stale_tests ts s).
  assert (NoDup st) as Ns by (apply NoDup_filter; assumption).
  destruct (in_dec Nat.eq_dec t st) as [J | J].
  - rewrite <- H1. exact (one_by_one_file (test_hits s) under st (dir s) t Ns J).
  - pose proof (one_by_one_schedule st Ns t) as F. destruct (in_dec Nat.eq_dec t st) as [K | _]; [contradiction |].
    destruct (others_keep (test_hits s) under t (one_by_one st) (dir s) F) as (_ & _ & E).
    unfold one_by_one in E. rewrite E.
    assert (out_of_date (filtered_time s t) [built s t] = false) as O.
    { destruct (out_of_date (filtered_time s t) [built s t]) eqn:O; [| reflexivity]. exfalso. apply J. apply filter_In. now split. }
    unfold out_of_date in O. destruct (filtered_time s t) as [ft |] eqn:T; [| discriminate O].
    cbn [existsb] in O. rewrite orb_false_r in O. apply Nat.ltb_ge in O.
    apply (H3 t ft I T). exact O.
Qed.

Lemma reports_extract : forall under file what, reports file under what ->
  reports (match file with Some i => Some (fun l => if under l then i l else 0) | None => None end) under what.
Proof.
  intros under file what (i & -> & R). eexists. split; [reflexivity |]. intros l. cbv beta. rewrite R. now destruct (under l).
Qed.

Lemma act_inv : forall under ts a s hits first, NoDup ts -> tree_inv under ts s hits first ->
  tree_inv under ts (act under ts a s) (current [a] hits) (first_built [a] hits first).
Proof.
  intros under ts a s hits first N H. destruct a as [t h | |]; cbn [act current first_built].
  - destruct H as (H1 & H2 & H3 & H4). unfold tree_inv. cbn. repeat split.
    + intros u. destruct (Nat.eqb u t); [reflexivity | apply H1].
    + intros u. destruct (Nat.eqb u t); [lia |]. specialize (H2 u). lia.
    + destruct (H3 _ _ H H0). lia.
    + destruct (H3 _ _ H H0) as (L & R). destruct (Nat.eqb t0 t); [lia | exact R].
    + destruct first as [f |]; [| exact H4]. destruct H4 as (a & c & A & C & L & R). exists a, c. repeat split; try tauto; lia.
  - pose proof (fun t => stale_file under ts s hits first t N H) as F.
    destruct H as (H1 & H2 & H3 & H4). unfold tree_inv. repeat split.
    + exact H1.
    + intros t. specialize (H2 t). cbn. lia.
    + cbn [make_cov filtered_time clock] in *. destruct (existsb (Nat.eqb t) (stale_tests ts s)); [inversion H0; lia |].
      destruct (H3 _ _ H H0). lia.
    + intros _. apply F. assumption.
    + destruct first as [f |].
      * destruct H4 as (a & c & A & C & L & R1 & R2). exists a, c.
        assert (out_of_date (cov_time s) [a] = false) as O.
        { rewrite C. cbn. rewrite orb_false_r. apply Nat.ltb_ge. lia. }
        cbn [make_cov all_time cov_time clock all_file cov_file]. rewrite A. cbn [out_of_date existsb]. rewrite O.
        repeat split; try assumption; lia.
      * destruct H4 as (A & C). exists (S (S (clock s))), (S (S (S (clock s)))).
        pose proof (all_reports under (dir (make_cov under ts s)) ts hits F) as R.
        cbn [make_cov all_time cov_time clock all_file cov_file dir] in *. rewrite A, C. cbn [out_of_date].
        repeat split; try lia; [exact R |]. apply reports_extract. exact R.
  - destruct H as (H1 & H2 & H3 & H4). unfold tree_inv. cbn. repeat split; try assumption; intros; try discriminate. lia.
Qed.

Lemma acts_inv : forall under ts es s hits first, NoDup ts -> tree_inv under ts s hits first ->
  tree_inv under ts (acts under ts es s) (current es hits) (first_built es hits first).
Proof.
  intros under ts es. induction es as [| a es IH]; intros s hits first N H; [exact H |].
  cbn [acts]. pose proof (IH _ _ _ N (act_inv under ts a s hits first N H)) as R.
  destruct a; cbn [current first_built] in *; exact R.
Qed.

Lemma new_inv : forall under ts hits, tree_inv under ts (new_tree hits) hits None.
Proof. intros under ts hits. unfold tree_inv, new_tree. cbn. repeat split; intros; try discriminate; lia. Qed.

Lemma current_app : forall a b hits, current (a ++ b) hits = current b (current a hits).
Proof. induction a as [| x a IH]; intros b hits; [reflexivity |]. destruct x; cbn [app current]; apply IH. Qed.
Lemma acts_app : forall under ts a b s, acts under ts (a ++ b) s = acts under ts b (acts under ts a s).
Proof. intros under ts. induction a as [| x a IH]; intros b s; [reflexivity |]. cbn [app acts]. apply IH. Qed.
Lemma first_built_app : forall a b hits first, first_built (a ++ b) hits first = first_built b (current a hits) (first_built a hits first).
Proof. induction a as [| x a IH]; intros b hits first; [reflexivity |]. destruct x; cbn [app first_built current]; apply IH. Qed.

Lemma first_built_none : forall es hits, nothing_built es -> first_built es hits None = None.
Proof.
  assert (forall es hits, ~ In Make es -> first_built es hits None = None) as K.
  { induction es as [| a es IH]; intros hits H; [reflexivity |]. destruct a; cbn [first_built].
    - apply IH. intros I. apply H. now right.
    - exfalso. apply H. now left.
    - apply IH. intros I. apply H. now right. }
  intros es hits [H | (b & q & -> & H)]; [now apply K |]. rewrite first_built_app. cbn [first_built]. now apply K.
Qed.
Lemma first_built_kept : forall es hits f, ~ In Clean es -> first_built es hits (Some f) = Some f.
Proof.
  induction es as [| a es IH]; intros hits f H; [reflexivity |]. destruct a; cbn [first_built].
  - apply IH. intros I. apply H. now right.
  - apply IH. intros I. apply H. now right.
  - exfalso. apply H. now left.
Qed.

Lemma overall : forall under ts hits before after, NoDup ts -> nothing_built before -> ~ In Clean after ->
  reports (cov_file (acts under ts (before ++ Make :: after) (new_tree hits))) under (total ts (current before hits)).
Proof.
  intros under ts hits before after N B A.
  destruct (acts_inv under ts (before ++ Make :: after) (new_tree hits) hits None N (new_inv under ts hits)) as (_ & _ & _ & H).
  rewrite first_built_app in H. rewrite (first_built_none before hits B) in H. cbn [first_built] in H.
  rewrite first_built_kept in H by assumption. destruct H as (a & c & _ & _ & _ & _ & R). exact R.
Qed.
