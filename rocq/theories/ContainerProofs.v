(** Proofs about vectors over the byte-level pool. *)
From Coq Require Import ZArith Bool List Lia Permutation Arith.
From Verif Require Import Outcome CanFrameModel PoolModel PoolProofs PoolBytesModel PoolBytesSpec PoolBytesProofs
  ContainerModel ContainerSpec.
Import ListNotations.
Open Scope Z_scope.

Lemma put_some : forall L s held free b a l, wf_layout L -> pinv L s held free -> In b held ->
  b <= a -> a + Z.of_nat (length l) <= b + l_stride L ->
  exists s', put_bytes L a l s = Ret s' /\ (forall x, bmem s' x = store (bmem s) a l x) /\ pinv L s' held free.
Proof.
  intros L s held free b a l W I Hb H1 H2. destruct l as [|z t].
  - exists s. split; [reflexivity|]. split; [|exact I]. intros x. rewrite store_out; [reflexivity|]. cbn [length]. lia.
  - destruct (write_some L s held free b a (z :: t) W I Hb H1 H2) as [E I'].
    eexists. split; [exact E|]. split; [reflexivity|exact I'].
Qed.

Lemma take_some : forall L s held free b a k, wf_layout L -> pinv L s held free -> In b held ->
  b <= a -> a + Z.of_nat k <= b + l_stride L -> take_bytes L a k s = Ret (load (bmem s) a k).
Proof.
  intros L s held free b a k W I Hb H1 H2. destruct k as [|k]; [reflexivity|].
  exact (read_some L s held free b a (S k) W I Hb H1 H2).
Qed.

Lemma load_ext_eq : forall m m' a k, (forall x, m' x = m x) -> load m' a k = load m a k.
Proof. intros m m' a k H. apply load_ext. intros x _. apply H. Qed.

(** One vector. *)
Definition vok (L : layout) (tsz : nat) (m : bytes) (c : list elem) (v : vec) : Prop :=
  Forall (fun x => length x = tsz) c /\ vsize v = length c /\ (vsize v <= vcap v)%nat /\
  Z.of_nat (vcap v * tsz) <= l_stride L /\ Z.of_nat (vcap v) <= l_bs L /\
  (vcap v = 0%nat -> vdata v = 0) /\
  (vcap v <> 0%nat -> load m (vdata v) (vsize v * tsz) = concat c).

Definition held1 (v : vec) : list Z := if (vcap v =? 0)%nat then [] else [vdata v].
Definition held_of (vs : list vec) : list Z := flat_map held1 vs.

Lemma concat_length : forall tsz (c : list elem), Forall (fun x => length x = tsz) c -> length (concat c) = (length c * tsz)%nat.
Proof.
  intros tsz c H. induction H as [|x t Hx Ht IH]; [reflexivity|]. cbn [concat length]. rewrite app_length, IH, Hx. lia.
Qed.

(** What the rest of the program sees: nothing. *)
Definition agrees (L : layout) (m m' : bytes) (O : list Z) : Prop :=
  forall a x, In a O -> a <= x < a + l_stride L -> m' x = m x.

Lemma vok_agree : forall L tsz m m' c v, wf_layout L -> agrees L m m' (held1 v) -> vok L tsz m c v -> vok L tsz m' c v.
Proof.
  intros L tsz m m' c v W A [H1 [H2 [H3 [H4 [H5 [H6 H7]]]]]]. repeat (split; [assumption|]).
  intros N. rewrite <- H7 by exact N. apply load_ext. intros x Hx. apply (A (vdata v)).
  - unfold held1. rewrite (proj2 (Nat.eqb_neq _ _) N). left; reflexivity.
  - nia.
Qed.

Lemma agrees_app : forall L m m' O1 O2, agrees L m m' (O1 ++ O2) -> agrees L m m' O1 /\ agrees L m m' O2.
Proof. intros L m m' O1 O2 H. split; intros a x Ha Hx; apply (H a x); auto; apply in_or_app; auto. Qed.

Lemma voks_agree : forall L tsz m m' cs vs, wf_layout L -> agrees L m m' (held_of vs) ->
  Forall2 (vok L tsz m) cs vs -> Forall2 (vok L tsz m') cs vs.
Proof.
  intros L tsz m m' cs vs W A H. induction H as [|c v cs vs Hv H IH]; constructor.
  - eapply vok_agree; [exact W| |exact Hv]. apply agrees_app in A. apply A.
  - apply IH. apply agrees_app in A. apply A.
Qed.

Lemma relocate_some : forall L exc tsz s v (c : list elem) newcap (extra : list elem) O p free, wf_layout L ->
  pinv L s (held1 v ++ O) (p :: free) -> vok L tsz (bmem s) c v ->
  Forall (fun x => length x = tsz) extra -> Z.of_nat newcap <= l_bs L -> Z.of_nat (newcap * tsz) <= l_stride L ->
  (length c + length extra <= newcap)%nat ->
  exists s' free', relocate L exc tsz v newcap extra s = Ret (Some (Vec p (length c + length extra) newcap), s') /\
    pinv L s' (p :: O) free' /\
    load (bmem s') p ((length c + length extra) * tsz) = concat (c ++ extra) /\
    agrees L (bmem s) (bmem s') O.
Proof.
  intros L exc tsz s v c newcap extra O p free W I [H1 [H2 [H3 [H4 [H5 [H6 H7]]]]]] He Hc Hf Hn.
  destruct (wf_stride L W) as [S1 [S2 S3]].
  destruct (alloc_some L exc (Z.of_nat newcap) 0 s _ p free W I Hc) as [s1 [E1 [M1 I1]]].
  pose proof (pinv_in _ _ _ _ p I (or_introl (or_introl eq_refl))) as Hp.
  destruct (block_range L p W Hp) as [_ [_ [_ [Nz _]]]].
  assert (Lc : length (concat c) = (length c * tsz)%nat) by (apply concat_length; exact H1).
  assert (Le : length (concat extra) = (length extra * tsz)%nat) by (apply concat_length; exact He).
  assert (Hsz : (length c * tsz + length extra * tsz <= newcap * tsz)%nat) by nia.
  destruct (put_some L s1 _ free p (p + Z.of_nat (vsize v * tsz)) (concat extra) W I1 (or_introl eq_refl)) as [s2 [E2 [M2 I2]]];
    [lia|rewrite Le, H2; lia|].
  (* the old elements *)
  assert (Q : take_bytes L (vdata v) (vsize v * tsz) s2 = Ret (concat c)).
  { destruct (Nat.eq_dec (vcap v) 0) as [Z0|Nc].
    - assert (vsize v = 0%nat) by lia. rewrite H. cbn. destruct c; [reflexivity|cbn in H2; lia].
    - assert (Hd : In (vdata v) (p :: held1 v ++ O)).
      { right. apply in_or_app. left. unfold held1. rewrite (proj2 (Nat.eqb_neq _ _) Nc). left; reflexivity. }
      assert (Nd : vdata v <> p).
      { intros X. pose proof (pinv_nodup _ _ _ _ W I1) as N. apply nodup_app_parts in N. destruct N as [_ [N _]].
        rewrite <- X in N. inversion N as [|? ? N1 N2]; subst. apply N1. apply in_or_app. left. unfold held1.
        rewrite (proj2 (Nat.eqb_neq _ _) Nc). left; reflexivity. }
      rewrite (take_some L s2 _ free (vdata v) (vdata v) (vsize v * tsz) W I2 Hd) by nia.
      f_equal. rewrite <- H7 by exact Nc. rewrite (load_ext_eq _ _ _ _ M2), M1. apply load_store_out.
      rewrite Le. destruct (held_apart L s1 _ _ (vdata v) p W I1 Hd (or_introl eq_refl) Nd); nia. }
  destruct (put_some L s2 _ free p p (concat c) W I2 (or_introl eq_refl)) as [s3 [E3 [M3 I3]]]; [lia|rewrite Lc; lia|].
  assert (D3 : load (bmem s3) p ((length c + length extra) * tsz) = concat (c ++ extra)).
  { rewrite Nat.mul_add_distr_r, load_app, concat_app. rewrite !(load_ext_eq _ _ _ _ M3).
    rewrite load_store_k by exact Lc. f_equal.
    rewrite load_store_out by (rewrite Lc; lia). rewrite (load_ext_eq _ _ _ _ M2). rewrite <- H2.
    apply load_store_k. exact Le. }
  assert (A3 : agrees L (bmem s) (bmem s3) O).
  { intros a x Ha Hx. rewrite M3. rewrite <- M1.
    assert (Na : a <> p).
    { intros X. subst a. pose proof (pinv_nodup _ _ _ _ W I1) as N. apply nodup_app_parts in N. destruct N as [_ [N _]].
      inversion N as [|? ? N1 N2]; subst. apply N1. apply in_or_app. right; exact Ha. }
    assert (Hin : In a (p :: held1 v ++ O)) by (right; apply in_or_app; right; exact Ha).
    pose proof (held_apart L s1 _ _ a p W I1 Hin (or_introl eq_refl) Na) as Ap.
    rewrite store_out by (rewrite Lc; nia). rewrite M2. apply store_out. rewrite Le. nia. }
  destruct (Nat.eq_dec (vcap v) 0) as [Z0|Nc].
  - (* there was no old array *)
    exists s3, free. unfold relocate. rewrite E1. cbn [bind]. rewrite (proj2 (Z.eqb_neq _ _) Nz).
    rewrite E2. cbn [bind]. rewrite Q. cbn [bind]. rewrite E3. cbn [bind].
    rewrite (H6 Z0). cbn [bdeallocate bind]. rewrite H2. split; [reflexivity|].
    unfold held1 in I3. rewrite Z0 in I3. cbn [Nat.eqb app] in I3. auto.
  - assert (E1' : held1 v = [vdata v]) by (unfold held1; rewrite (proj2 (Nat.eqb_neq _ _) Nc); reflexivity).
    rewrite E1' in *. cbn [app] in *.
    destruct (free_some L s3 _ free (vdata v) W I3 (or_intror (or_introl eq_refl))) as [s4 [E4 [M4 I4]]].
    exists s4, (vdata v :: free). unfold relocate. rewrite E1. cbn [bind]. rewrite (proj2 (Z.eqb_neq _ _) Nz).
    rewrite E2. cbn [bind]. rewrite Q. cbn [bind]. rewrite E3. cbn [bind]. rewrite E4. cbn [bind].
    rewrite H2. split; [reflexivity|].
    pose proof (pinv_nodup _ _ _ _ W I3) as N. apply nodup_app_parts in N. destruct N as [_ [N _]].
    inversion N as [|? ? N1 N2]; subst. inversion N2 as [|? ? N3 N4]; subst.
    assert (Nd : p <> vdata v) by (intros X; apply N1; left; congruence).
    split.
    { cbn [remove] in I4. destruct (Z.eq_dec (vdata v) p) as [X|_]; [congruence|].
      destruct (Z.eq_dec (vdata v) (vdata v)) as [_|X]; [|congruence]. rewrite notin_remove in I4 by exact N3. exact I4. }
    split.
    + rewrite <- D3. apply load_ext. intros x Hx. apply M4.
      destruct (held_apart L s3 _ _ p (vdata v) W I3 (or_introl eq_refl) (or_intror (or_introl eq_refl)) Nd); nia.
    + intros a x Ha Hx. rewrite M4; [exact (A3 a x Ha Hx)|].
      assert (Na : a <> vdata v) by (intros X; subst a; contradiction).
      destruct (held_apart L s3 _ _ a (vdata v) W I3 (or_intror (or_intror Ha)) (or_intror (or_introl eq_refl)) Na); nia.
Qed.

Lemma relocate_none : forall L exc tsz s v newcap extra held, pinv L s held [] ->
  relocate L exc tsz v newcap extra s = if exc then Ret (None, s) else UB.
Proof.
  intros L exc tsz s v newcap extra held I. unfold relocate.
  rewrite (alloc_refuse L exc (Z.of_nat newcap) 0 s held [] I) by (right; reflexivity). destruct exc; reflexivity.
Qed.

(** All vectors. *)
Definition winv (L : layout) (tsz : nat) (cs : contents) (w : world) : Prop :=
  Forall2 (vok L tsz (bmem (wpool w))) cs (wvecs w) /\ exists free, pinv L (wpool w) (held_of (wvecs w)) free.

Lemma replace_nth_mid : forall A (a b : list A) x y, replace_nth (length a) y (a ++ x :: b) = a ++ y :: b.
Proof. intros A a b x y. induction a as [|h t IH]; [reflexivity|]. cbn. now rewrite IH. Qed.

Lemma replace_mid : forall A i (a b : list A) x y, length a = i -> replace_nth i y (a ++ x :: b) = a ++ y :: b.
Proof. intros A i a b x y <-. apply replace_nth_mid. Qed.

Lemma held_of_mid : forall a v b, Permutation (held_of (a ++ v :: b)) (held1 v ++ held_of a ++ held_of b).
Proof.
  intros a v b. unfold held_of. rewrite flat_map_app. cbn [flat_map]. rewrite !app_assoc.
  apply Permutation_app_tail. apply Permutation_app_comm.
Qed.

Lemma forall2_length : forall A B (R : A -> B -> Prop) l l', Forall2 R l l' -> length l = length l'.
Proof. intros A B R l l' H. induction H; cbn; congruence. Qed.

Lemma winv_split : forall L tsz cs w i, winv L tsz cs w -> (i < length cs)%nat ->
  exists c v ca cb va vb free, cs = ca ++ c :: cb /\ wvecs w = va ++ v :: vb /\ length ca = i /\ length va = i /\
    nth_error (wvecs w) i = Some v /\ the i cs = c /\
    Forall2 (vok L tsz (bmem (wpool w))) ca va /\ Forall2 (vok L tsz (bmem (wpool w))) cb vb /\
    vok L tsz (bmem (wpool w)) c v /\ pinv L (wpool w) (held1 v ++ held_of va ++ held_of vb) free.
Proof.
  intros L tsz cs w i [F [free I]] Hi.
  destruct (nth_error cs i) as [c|] eqn:E; [|apply nth_error_None in E; lia].
  destruct (nth_error_split cs i E) as [ca [cb [Ec Lc]]]. subst cs.
  apply Forall2_app_inv_l in F. destruct F as [va [r [Fa [Fb Ev]]]].
  inversion Fb as [|c' v cb' vb Hv Fb' Hc Hr]; subst.
  pose proof (forall2_length _ _ _ _ _ Fa) as La.
  exists c, v, ca, cb, va, vb, free. split; [reflexivity|]. split; [exact Ev|]. split; [reflexivity|]. split; [auto|].
  split. { rewrite Ev, La, nth_error_app2, Nat.sub_diag by lia. reflexivity. }
  split. { unfold the. rewrite app_nth2, Nat.sub_diag by lia. reflexivity. }
  split; [exact Fa|]. split; [exact Fb'|]. split; [exact Hv|].
  eapply pinv_perm; [exact I|]. rewrite Ev. apply held_of_mid.
Qed.

(** Putting the parts together again. *)
Lemma winv_join : forall L tsz ca c cb va v vb m s free, wf_layout L ->
  Forall2 (vok L tsz m) ca va -> Forall2 (vok L tsz m) cb vb -> agrees L m (bmem s) (held_of va ++ held_of vb) ->
  vok L tsz (bmem s) c v -> pinv L s (held1 v ++ held_of va ++ held_of vb) free ->
  winv L tsz (ca ++ c :: cb) (World s (va ++ v :: vb)).
Proof.
  intros L tsz ca c cb va v vb m s free W Fa Fb A Hv I. apply agrees_app in A. destruct A as [Aa Ab].
  split; cbn [wpool wvecs].
  - apply Forall2_app; [eapply voks_agree; eassumption|]. constructor; [exact Hv|eapply voks_agree; eassumption].
  - exists free. eapply pinv_perm; [exact I|]. apply Permutation_sym, held_of_mid.
Qed.

Lemma agrees_refl : forall L m O, agrees L m m O.
Proof. intros L m O a x _ _. reflexivity. Qed.

Lemma users_held : forall w, users w = length (held_of (wvecs w)).
Proof.
  intros [s vs]. unfold users. cbn [wvecs]. induction vs as [|v t IH]; [reflexivity|].
  cbn [List.filter held_of flat_map]. unfold held1 at 1. destruct (vcap v =? 0)%nat; cbn; [exact IH|].
  now rewrite IH.
Qed.

Lemma users_split : forall L w va v vb free, wvecs w = va ++ v :: vb ->
  pinv L (wpool w) (held1 v ++ held_of va ++ held_of vb) free -> (length free + users w = l_num L)%nat.
Proof.
  intros L w va v vb free E I. rewrite users_held, E. rewrite (Permutation_length (held_of_mid va v vb)).
  exact (pinv_length _ _ _ _ I).
Qed.

Lemma app_eq_app_len : forall A (a b c d : list A), a ++ b = c ++ d -> length a = length c -> a = c /\ b = d.
Proof.
  intros A a. induction a as [|x t IH]; intros b [|y c] d E H; cbn in *; try discriminate; [auto|].
  injection E as -> E. destruct (IH b c d E) as [-> ->]; [congruence|auto].
Qed.

Lemma concat_nth : forall tsz (c : list elem) i, Forall (fun x => length x = tsz) c -> (i < length c)%nat ->
  exists l1 l2, c = l1 ++ nth i c [] :: l2 /\ length l1 = i /\ length (concat l1) = (i * tsz)%nat /\ length (nth i c []) = tsz.
Proof.
  intros tsz c i F H. destruct (nth_error c i) as [x|] eqn:E; [|apply nth_error_None in E; lia].
  rewrite (nth_error_nth c i [] E).
  destruct (nth_error_split c i E) as [l1 [l2 [-> Hl]]]. exists l1, l2. split; [reflexivity|]. split; [exact Hl|].
  apply Forall_app in F. destruct F as [F1 F2]. inversion F2; subst. split; [apply concat_length; exact F1|reflexivity].
Qed.

(** The bytes of element [i]. *)
Lemma load_elem : forall m a tsz (c : list elem) i, Forall (fun x => length x = tsz) c -> (i < length c)%nat ->
  load m a (length c * tsz) = concat c -> load m (a + Z.of_nat (i * tsz)) tsz = nth i c [].
Proof.
  intros m a tsz c i F H E. destruct (concat_nth tsz c i F H) as [l1 [l2 [Ec [H1 [H2 H3]]]]].
  rewrite Ec in E at 2. rewrite concat_app in E. cbn [concat] in E.
  replace (length c * tsz)%nat with (i * tsz + (tsz + (length c - i - 1) * tsz))%nat in E by nia.
  rewrite load_app in E. apply app_eq_app_len in E; [|rewrite load_length; auto]. destruct E as [_ E].
  rewrite load_app in E. apply app_eq_app_len in E; [|rewrite load_length; auto]. apply E.
Qed.

Lemma load_push : forall m a tsz (c : list elem) x, length x = tsz -> load m a (length c * tsz) = concat c ->
  load (store m (a + Z.of_nat (length c * tsz)) x) a ((length c + 1) * tsz) = concat (c ++ [x]).
Proof.
  intros m a tsz c x Hx E. rewrite Nat.mul_add_distr_r, Nat.mul_1_l, load_app, concat_app. cbn [concat]. rewrite app_nil_r.
  f_equal; [|apply load_store_k; exact Hx]. rewrite load_store_out by lia. exact E.
Qed.

Lemma load_replace : forall m a tsz (c : list elem) i (x : elem), Forall (fun y => length y = tsz) c -> (i < length c)%nat -> length x = tsz ->
  load m a (length c * tsz) = concat c ->
  load (store m (a + Z.of_nat (i * tsz)) x) a (length c * tsz) = concat (@replace_nth elem i x c).
Proof.
  intros m a tsz c i x F H Hx E. destruct (concat_nth tsz c i F H) as [l1 [l2 [Ec [H1 [H2 H3]]]]].
  generalize (nth i c []) Ec H3. clear Ec H3. intros y Ec H3. subst c. rewrite (replace_mid elem i l1 l2 y x H1).
  rewrite app_length in *. cbn [length] in *.
  rewrite concat_app in *. cbn [concat] in *.
  replace ((length l1 + S (length l2)) * tsz)%nat with (i * tsz + (tsz + length l2 * tsz))%nat in * by nia.
  rewrite load_app in E. apply app_eq_app_len in E; [|rewrite load_length; auto]. destruct E as [E1 E].
  rewrite load_app in E. apply app_eq_app_len in E; [|rewrite load_length; auto]. destruct E as [E2 E3].
  rewrite !load_app. f_equal; [rewrite load_store_out by lia; exact E1|].
  f_equal; [apply load_store_k; exact Hx|]. rewrite load_store_out by lia. exact E3.
Qed.

Lemma forall_replace : forall A (P : A -> Prop) i x l, Forall P l -> P x -> Forall P (replace_nth i x l).
Proof.
  intros A P i x l F. revert i. induction F as [|h t Hh Ht IH]; intros i Hx; [destruct i; constructor|].
  destruct i; constructor; auto.
Qed.
Lemma length_replace : forall A i (x : A) l, length (replace_nth i x l) = length l.
Proof. intros A i x l. revert i. induction l as [|h t IH]; intros [|i]; cbn; auto. Qed.

Lemma removelast_length : forall A (l : list A), length (removelast l) = (length l - 1)%nat.
Proof. intros A l. induction l as [|a [|b t] IH]; [reflexivity|reflexivity|]. cbn [removelast length] in *. lia. Qed.

Lemma removelast_forall : forall A (P : A -> Prop) l, Forall P l -> Forall P (removelast l).
Proof.
  intros A P l F. induction F as [|a t Ha Ht IH]; [constructor|]. cbn. destruct t; [constructor|constructor; auto].
Qed.

Lemma load_pop : forall m a tsz (c : list elem), Forall (fun x => length x = tsz) c -> c <> [] ->
  load m a (length c * tsz) = concat c -> load m a (length (removelast c) * tsz) = concat (removelast c).
Proof.
  intros m a tsz c F N E. rewrite (app_removelast_last [] N) in E at 2. rewrite concat_app in E.
  pose proof (removelast_length _ c) as Hl. assert (0 < length c)%nat by (destruct c; [congruence|cbn; lia]).
  replace (length c * tsz)%nat with (length (removelast c) * tsz + tsz)%nat in E by nia.
  rewrite load_app in E. apply app_eq_app_len in E; [apply E|].
  rewrite load_length. symmetry. apply concat_length. apply removelast_forall. exact F.
Qed.

(** One call. *)
Lemma vstep_fits : forall L exc tsz cs w o, wf_layout L -> winv L tsz cs w -> vlegal (l_bs L) tsz cs o ->
  vfits (l_stride L) tsz o ->
  (too_long (l_bs L) cs o -> vstep L exc tsz o w = Ret (VLengthError, w)) /\
  (~ too_long (l_bs L) cs o -> needs_block o w -> users w = l_num L ->
     vstep L exc tsz o w = if exc then Ret (refusal o, w) else UB) /\
  (~ too_long (l_bs L) cs o -> (needs_block o w -> (users w < l_num L)%nat) ->
     exists w', vstep L exc tsz o w =
         Ret (match o with VGet v i => VElem (nth i (the v cs) []) | _ => VOk end, w') /\
       winv L tsz (after o cs) w').
Proof.
  intros L exc tsz cs w o W I G T. destruct (wf_stride L W) as [S1 [S2 S3]].
  destruct o as [i x newcap|i|i m newcap|i hon|i|i|i j x|i j];
    cbn [vlegal vfits too_long needs_block refusal after vstep] in *.
  - (* push_back *)
    destruct G as [Hi [Hx Hc]].
    destruct (winv_split L tsz cs w i I Hi) as [c [v [ca [cb [va [vb [free [-> [Ev [La [Lv [En [Et [Fa [Fb [Hv P]]]]]]]]]]]]]]]].
    rewrite Et in *. rewrite En. pose proof (users_split L w va v vb free Ev P) as U.
    pose proof Hv as [H1 [H2 [H3 [H4 [H5 [H6 H7]]]]]].
    split; [|split].
    + intros X. assert (vsize v = vcap v) by lia. rewrite (proj2 (Nat.ltb_ge _ _)) by lia.
      unfold max_size. rewrite (proj2 (Z.leb_le _ _)) by lia. reflexivity.
    + intros X [v' [Ev' Hs]] Hu. injection Ev' as <-. rewrite (proj2 (Nat.ltb_ge _ _)) by lia.
      unfold max_size. rewrite (proj2 (Z.leb_gt _ _)) by lia.
      destruct free as [|p free]; [|cbn in U; lia]. rewrite (relocate_none _ _ _ _ _ _ _ _ P).
      destruct exc; [|reflexivity]. cbn [bind]. destruct w; reflexivity.
    + intros X Hu. destruct (Nat.ltb_spec (vsize v) (vcap v)) as [Hlt|Hge].
      * assert (Nc : vcap v <> 0%nat) by lia.
        assert (Hd : In (vdata v) (held1 v ++ held_of va ++ held_of vb))
          by (apply in_or_app; left; unfold held1; rewrite (proj2 (Nat.eqb_neq _ _) Nc); left; reflexivity).
        destruct (put_some L (wpool w) _ free (vdata v) (vdata v + Z.of_nat (vsize v * tsz)) x W P Hd) as [s' [E [M P']]];
          [lia|rewrite Hx; nia|].
        rewrite E. cbn [bind]. eexists. split; [reflexivity|].
        rewrite Ev. rewrite (replace_mid _ i va vb v _ Lv), (replace_mid _ i ca cb c _ La).
        eapply winv_join with (m := bmem (wpool w)) (free := free); try eassumption.
        -- intros a y Ha Hy. rewrite M. apply store_out. rewrite Hx.
           assert (Na : a <> vdata v).
           { intros ->. pose proof (pinv_nodup _ _ _ _ W P) as N. apply nodup_app_parts in N. destruct N as [_ [N _]].
             apply nodup_app_parts in N. destruct N as [_ [_ N]]. apply (N (vdata v)); [|exact Ha].
             unfold held1; rewrite (proj2 (Nat.eqb_neq _ _) Nc); left; reflexivity. }
           destruct (held_apart L _ _ _ a (vdata v) W P (in_or_app _ _ _ (or_intror Ha)) Hd Na); nia.
        -- split; [apply Forall_app; split; [exact H1|repeat constructor; exact Hx]|]. cbn [vsize vcap vdata].
           split; [rewrite app_length; cbn; lia|]. split; [lia|]. split; [exact H4|]. split; [exact H5|].
           split; [exact H6|]. intros _. rewrite (load_ext_eq _ _ _ _ M), H2. apply load_push; [exact Hx|].
           rewrite <- H2. apply H7; exact Nc.
      * assert (Hs : vsize v = vcap v) by lia. unfold max_size. rewrite (proj2 (Z.leb_gt _ _)) by lia.
        destruct (Hc ltac:(lia)) as [Hc1 Hc2].
        assert (Hu' : (users w < l_num L)%nat) by (apply Hu; exists v; split; [reflexivity|exact Hs]).
        destruct free as [|p free]; [cbn in U; lia|].
        destruct (relocate_some L exc tsz (wpool w) v c newcap [x] _ p free W P Hv) as [s' [free' [E [P' [D A]]]]];
          [repeat constructor; exact Hx|exact Hc2|exact T|cbn; lia|].
        rewrite E. cbn [bind]. eexists. split; [reflexivity|].
        rewrite Ev. rewrite (replace_mid _ i va vb v _ Lv), (replace_mid _ i ca cb c _ La).
        eapply winv_join with (m := bmem (wpool w)) (free := free'); try eassumption.
        -- split; [apply Forall_app; split; [exact H1|repeat constructor; exact Hx]|]. cbn [vsize vcap vdata].
           split; [rewrite app_length; reflexivity|]. split; [cbn; lia|]. split; [exact T|]. split; [exact Hc2|].
           split; [lia|]. intros _. exact D.
        -- unfold held1. cbn [vcap vdata]. rewrite (proj2 (Nat.eqb_neq _ _)) by lia. exact P'.
  - (* pop_back *)
    destruct G as [Hi Hn].
    destruct (winv_split L tsz cs w i I Hi) as [c [v [ca [cb [va [vb [free [-> [Ev [La [Lv [En [Et [Fa [Fb [Hv P]]]]]]]]]]]]]]]].
    rewrite Et in *. rewrite En. pose proof Hv as [H1 [H2 [H3 [H4 [H5 [H6 H7]]]]]].
    split; [intros []|]. split; [intros _ []|]. intros _ _.
    pose proof (removelast_length _ c) as Hl.
    destruct (vsize v) as [|n] eqn:Es; [destruct c; [congruence|cbn in H2; lia]|].
    eexists. split; [reflexivity|]. rewrite Ev. rewrite (replace_mid _ i va vb v _ Lv), (replace_mid _ i ca cb c _ La).
    eapply winv_join with (m := bmem (wpool w)) (free := free); try eassumption; [apply agrees_refl|].
    split; [apply removelast_forall; exact H1|]. cbn [vsize vcap vdata].
    split; [lia|]. split; [lia|]. split; [exact H4|]. split; [exact H5|]. split; [exact H6|].
    intros Nc. replace n with (length (removelast c)) by lia. apply load_pop; [exact H1|exact Hn|].
    rewrite <- H2. apply H7; exact Nc.
  - (* reserve *)
    destruct G as [Hi Hc].
    destruct (winv_split L tsz cs w i I Hi) as [c [v [ca [cb [va [vb [free [-> [Ev [La [Lv [En [Et [Fa [Fb [Hv P]]]]]]]]]]]]]]]].
    rewrite En. pose proof (users_split L w va v vb free Ev P) as U.
    pose proof Hv as [H1 [H2 [H3 [H4 [H5 [H6 H7]]]]]]. unfold max_size.
    split; [|split].
    + intros X. rewrite (proj2 (Z.ltb_lt _ _)) by lia. reflexivity.
    + intros X [v' [Ev' Hs]] Hu. injection Ev' as <-. rewrite (proj2 (Z.ltb_ge _ _)) by lia.
      rewrite (proj2 (Nat.leb_gt _ _)) by lia.
      destruct free as [|p free]; [|cbn in U; lia]. rewrite (relocate_none _ _ _ _ _ _ _ _ P).
      destruct exc; [|reflexivity]. cbn [bind]. destruct w; reflexivity.
    + intros X Hu. rewrite (proj2 (Z.ltb_ge _ _)) by lia. destruct (Nat.leb_spec m (vcap v)) as [Hle|Hgt].
      * exists w. split; [reflexivity|exact I].
      * destruct (Hc ltac:(lia)) as [Hc1 Hc2].
        assert (Hu' : (users w < l_num L)%nat) by (apply Hu; exists v; split; [reflexivity|exact Hgt]).
        destruct free as [|p free]; [cbn in U; lia|].
        destruct (relocate_some L exc tsz (wpool w) v c newcap [] _ p free W P Hv) as [s' [free' [E [P' [D A]]]]];
          [constructor|exact Hc2|exact T|cbn; lia|].
        rewrite E. cbn [bind]. eexists. split; [reflexivity|].
        rewrite Ev. rewrite (replace_mid _ i va vb v _ Lv).
        eapply winv_join with (m := bmem (wpool w)) (free := free'); try eassumption.
        -- split; [exact H1|]. cbn [vsize vcap vdata length]. rewrite app_nil_r in D.
           split; [lia|]. split; [lia|]. split; [exact T|]. split; [exact Hc2|].
           split; [lia|]. intros _. exact D.
        -- unfold held1. cbn [vcap vdata]. rewrite (proj2 (Nat.eqb_neq _ _)) by lia. exact P'.
  - (* shrink_to_fit *)
    destruct (winv_split L tsz cs w i I G) as [c [v [ca [cb [va [vb [free [-> [Ev [La [Lv [En [Et [Fa [Fb [Hv P]]]]]]]]]]]]]]]].
    rewrite En. pose proof (users_split L w va v vb free Ev P) as U.
    pose proof Hv as [H1 [H2 [H3 [H4 [H5 [H6 H7]]]]]].
    split; [intros []|]. split.
    + intros _ [-> [v' [Ev' Hs]]] Hu. injection Ev' as <-. cbn [negb orb]. rewrite (proj2 (Nat.eqb_neq _ _)) by lia.
      destruct free as [|p free]; [|cbn in U; lia].
      destruct (vsize v) as [|n] eqn:Es; [lia|].
      rewrite (relocate_none _ _ _ _ _ _ _ _ P). destruct exc; [|reflexivity]. cbn [bind]. destruct w; reflexivity.
    + intros _ Hu. destruct hon; cbn [negb orb]; [|exists w; split; [reflexivity|exact I]].
      destruct (Nat.eqb_spec (vcap v) (vsize v)) as [Heq|Hne]; [exists w; split; [reflexivity|exact I]|].
      assert (Nc : vcap v <> 0%nat) by lia.
      assert (Eh : held1 v = [vdata v]) by (unfold held1; rewrite (proj2 (Nat.eqb_neq _ _) Nc); reflexivity).
      destruct (vsize v) as [|n] eqn:Es.
      * rewrite Eh in P. cbn [app] in P.
        destruct (free_some L (wpool w) _ free (vdata v) W P (or_introl eq_refl)) as [s' [E [M P']]].
        rewrite E. cbn [bind]. eexists. split; [reflexivity|].
        rewrite Ev. rewrite (replace_mid _ i va vb v _ Lv).
        pose proof (pinv_nodup _ _ _ _ W P) as N. apply nodup_app_parts in N. destruct N as [_ [N _]].
        inversion N as [|? ? N1 N2]; subst.
        eapply winv_join with (m := bmem (wpool w)) (free := vdata v :: free); try eassumption.
        -- intros a y Ha Hy. apply M.
           assert (Na : a <> vdata v) by (intros ->; contradiction).
           destruct (held_apart L _ _ _ a (vdata v) W P (or_intror Ha) (or_introl eq_refl) Na); lia.
        -- assert (c = []) by (destruct c; [reflexivity|cbn in H2; lia]). subst c.
           destruct W as [_ [B _]]. split; [constructor|]. cbn. repeat split; try lia; try congruence.
        -- unfold held1. cbn [vcap vec_empty]. cbn. cbn [remove] in P'.
           destruct (Z.eq_dec (vdata v) (vdata v)) as [_|X]; [|congruence]. rewrite notin_remove in P' by exact N1. exact P'.
      * assert (Hu' : (users w < l_num L)%nat).
        { apply Hu. split; [reflexivity|]. exists v. split; [reflexivity|lia]. }
        destruct free as [|p free]; [cbn in U; lia|]. rewrite <- Es in *.
        destruct (relocate_some L exc tsz (wpool w) v c (vsize v) [] _ p free W P Hv) as [s' [free' [E [P' [D A]]]]];
          [constructor|lia|nia|cbn; lia|].
        rewrite E. cbn [bind]. eexists. split; [reflexivity|].
        rewrite Ev. rewrite (replace_mid _ i va vb v _ Lv).
        eapply winv_join with (m := bmem (wpool w)) (free := free'); try eassumption.
        -- split; [exact H1|]. cbn [vsize vcap vdata length]. rewrite app_nil_r in D.
           split; [lia|]. split; [lia|]. split; [nia|]. split; [lia|]. split; [lia|]. intros _. exact D.
        -- unfold held1. cbn [vcap vdata]. rewrite (proj2 (Nat.eqb_neq _ _)) by lia. exact P'.
  - (* clear *)
    destruct (winv_split L tsz cs w i I G) as [c [v [ca [cb [va [vb [free [-> [Ev [La [Lv [En [Et [Fa [Fb [Hv P]]]]]]]]]]]]]]]].
    rewrite En. pose proof Hv as [H1 [H2 [H3 [H4 [H5 [H6 H7]]]]]].
    split; [intros []|]. split; [intros _ []|]. intros _ _. eexists. split; [reflexivity|].
    rewrite Ev. rewrite (replace_mid _ i va vb v _ Lv), (replace_mid _ i ca cb c _ La).
    eapply winv_join with (m := bmem (wpool w)) (free := free); try eassumption; [apply agrees_refl|].
    split; [constructor|]. cbn [vsize vcap vdata length]. split; [reflexivity|]. split; [lia|]. split; [exact H4|].
    split; [exact H5|]. split; [exact H6|]. reflexivity.
  - (* destructor *)
    destruct (winv_split L tsz cs w i I G) as [c [v [ca [cb [va [vb [free [-> [Ev [La [Lv [En [Et [Fa [Fb [Hv P]]]]]]]]]]]]]]]].
    rewrite En. pose proof Hv as [H1 [H2 [H3 [H4 [H5 [H6 H7]]]]]].
    split; [intros []|]. split; [intros _ []|]. intros _ _.
    assert (V : forall m, vok L tsz m [] vec_empty).
    { intros m. destruct W as [_ [B _]]. split; [constructor|]. cbn. repeat split; try lia; try congruence. }
    destruct (Nat.eq_dec (vcap v) 0) as [Z0|Nc].
    + rewrite (H6 Z0). cbn [bdeallocate Z.eqb bind]. eexists. split; [reflexivity|].
      rewrite Ev. rewrite (replace_mid _ i va vb v _ Lv), (replace_mid _ i ca cb c _ La).
      eapply winv_join with (m := bmem (wpool w)) (free := free); try eassumption; [apply agrees_refl|apply V|].
      unfold held1 in *. rewrite Z0 in P. exact P.
    + assert (Eh : held1 v = [vdata v]) by (unfold held1; rewrite (proj2 (Nat.eqb_neq _ _) Nc); reflexivity).
      rewrite Eh in P. cbn [app] in P.
      destruct (free_some L (wpool w) _ free (vdata v) W P (or_introl eq_refl)) as [s' [E [M P']]].
      rewrite E. cbn [bind]. eexists. split; [reflexivity|].
      rewrite Ev. rewrite (replace_mid _ i va vb v _ Lv), (replace_mid _ i ca cb c _ La).
      pose proof (pinv_nodup _ _ _ _ W P) as N. apply nodup_app_parts in N. destruct N as [_ [N _]].
      inversion N as [|? ? N1 N2]; subst.
      eapply winv_join with (m := bmem (wpool w)) (free := vdata v :: free); try eassumption; [|apply V|].
      * intros a y Ha Hy. apply M.
        assert (Na : a <> vdata v) by (intros ->; contradiction).
        destruct (held_apart L _ _ _ a (vdata v) W P (or_intror Ha) (or_introl eq_refl) Na); lia.
      * unfold held1. cbn [vcap vec_empty]. cbn. cbn [remove] in P'.
        destruct (Z.eq_dec (vdata v) (vdata v)) as [_|X]; [|congruence]. rewrite notin_remove in P' by exact N1. exact P'.
  - (* v[j] = x *)
    destruct G as [Hi [Hj Hx]].
    destruct (winv_split L tsz cs w i I Hi) as [c [v [ca [cb [va [vb [free [-> [Ev [La [Lv [En [Et [Fa [Fb [Hv P]]]]]]]]]]]]]]]].
    rewrite Et in *. rewrite En. pose proof Hv as [H1 [H2 [H3 [H4 [H5 [H6 H7]]]]]].
    split; [intros []|]. split; [intros _ []|]. intros _ _.
    assert (Nc : vcap v <> 0%nat) by lia. rewrite (proj2 (Nat.ltb_lt _ _)) by lia.
    assert (Hd : In (vdata v) (held1 v ++ held_of va ++ held_of vb))
      by (apply in_or_app; left; unfold held1; rewrite (proj2 (Nat.eqb_neq _ _) Nc); left; reflexivity).
    assert (Hjs : (j * tsz + tsz <= vcap v * tsz)%nat) by nia.
    destruct (put_some L (wpool w) _ free (vdata v) (vdata v + Z.of_nat (j * tsz)) x W P Hd) as [s' [E [M P']]];
      [lia|rewrite Hx; lia|].
    rewrite E. cbn [bind]. eexists. split; [reflexivity|]. rewrite Ev. rewrite (replace_mid _ i ca cb c _ La).
    eapply winv_join with (m := bmem (wpool w)) (free := free); try eassumption.
    + intros a y Ha Hy. rewrite M. apply store_out. rewrite Hx.
      assert (Na : a <> vdata v).
      { intros ->. pose proof (pinv_nodup _ _ _ _ W P) as N. apply nodup_app_parts in N. destruct N as [_ [N _]].
        apply nodup_app_parts in N. destruct N as [_ [_ N]]. apply (N (vdata v)); [|exact Ha].
        unfold held1; rewrite (proj2 (Nat.eqb_neq _ _) Nc); left; reflexivity. }
      destruct (held_apart L _ _ _ a (vdata v) W P (in_or_app _ _ _ (or_intror Ha)) Hd Na); lia.
    + split; [apply forall_replace; [exact H1|exact Hx]|]. rewrite length_replace.
      split; [exact H2|]. split; [exact H3|]. split; [exact H4|]. split; [exact H5|]. split; [exact H6|].
      intros _. rewrite (load_ext_eq _ _ _ _ M), H2. apply load_replace; auto. rewrite <- H2. apply H7; exact Nc.
  - (* v[j] *)
    destruct G as [Hi Hj].
    destruct (winv_split L tsz cs w i I Hi) as [c [v [ca [cb [va [vb [free [Ecs [Ev [La [Lv [En [Et [Fa [Fb [Hv P]]]]]]]]]]]]]]]].
    rewrite Et in *. rewrite En. pose proof Hv as [H1 [H2 [H3 [H4 [H5 [H6 H7]]]]]].
    split; [intros []|]. split; [intros _ []|]. intros _ _.
    assert (Nc : vcap v <> 0%nat) by lia. rewrite (proj2 (Nat.ltb_lt _ _)) by lia.
    assert (Hd : In (vdata v) (held1 v ++ held_of va ++ held_of vb))
      by (apply in_or_app; left; unfold held1; rewrite (proj2 (Nat.eqb_neq _ _) Nc); left; reflexivity).
    assert (Hjs : (j * tsz + tsz <= vcap v * tsz)%nat) by nia.
    rewrite (take_some L (wpool w) _ free (vdata v) (vdata v + Z.of_nat (j * tsz)) tsz W P Hd) by lia.
    cbn [bind]. exists w. split; [|exact I]. do 2 f_equal. f_equal. apply load_elem; [exact H1|exact Hj|].
    rewrite <- H2. apply H7; exact Nc.
Qed.

Lemma vstep_too_long : forall L exc tsz cs w o, winv L tsz cs w -> vlegal (l_bs L) tsz cs o ->
  too_long (l_bs L) cs o -> vstep L exc tsz o w = Ret (VLengthError, w).
Proof.
  intros L exc tsz cs w o I G X. destruct o as [i x newcap|i|i m newcap|i hon|i|i|i j x|i j]; try contradiction;
    cbn [vlegal too_long vstep] in *.
  - destruct G as [Hi _].
    destruct (winv_split L tsz cs w i I Hi) as [c [v [ca [cb [va [vb [free [_ [_ [_ [_ [En [Et [_ [_ [Hv _]]]]]]]]]]]]]]]].
    rewrite Et in *. rewrite En. destruct Hv as [H1 [H2 [H3 [H4 [H5 _]]]]].
    rewrite (proj2 (Nat.ltb_ge _ _)) by lia. unfold max_size. rewrite (proj2 (Z.leb_le _ _)) by lia. reflexivity.
  - destruct G as [Hi _].
    destruct (winv_split L tsz cs w i I Hi) as [c [v [ca [cb [va [vb [free [_ [_ [_ [_ [En _]]]]]]]]]]]].
    rewrite En. unfold max_size. rewrite (proj2 (Z.ltb_lt _ _)) by lia. reflexivity.
Qed.

Lemma vstep_spec : forall L exc tsz cs w o, wf_layout L -> winv L tsz cs w -> vlegal (l_bs L) tsz cs o ->
  too_long (l_bs L) cs o \/ vfits (l_stride L) tsz o ->
  (too_long (l_bs L) cs o -> vstep L exc tsz o w = Ret (VLengthError, w)) /\
  (~ too_long (l_bs L) cs o -> needs_block o w -> users w = l_num L ->
     vstep L exc tsz o w = if exc then Ret (refusal o, w) else UB) /\
  (~ too_long (l_bs L) cs o -> (needs_block o w -> (users w < l_num L)%nat) ->
     exists w', vstep L exc tsz o w =
         Ret (match o with VGet v i => VElem (nth i (the v cs) []) | _ => VOk end, w') /\
       winv L tsz (after o cs) w').
Proof.
  intros L exc tsz cs w o W I G [X|T]; [|now apply vstep_fits].
  split; [intros _; exact (vstep_too_long L exc tsz cs w o I G X)|]. split; intros Y; contradiction.
Qed.

(** Histories. *)
Lemma winv_init : forall L tsz k, wf_layout L -> winv L tsz (repeat [] k) (world_init L k).
Proof.
  intros L tsz k W. split; cbn [world_init wpool wvecs].
  - destruct (wf_stride L W) as [_ [_ S3]]. destruct W as [_ [B _]].
    induction k as [|k IH]; cbn [repeat]; constructor; [|exact IH].
    split; [constructor|]. unfold vec_empty. cbn [vsize vcap vdata length Nat.mul Z.of_nat].
    split; [reflexivity|]. split; [lia|]. split; [lia|]. split; [lia|]. split; [reflexivity|]. intros X; congruence.
  - exists (blocks L). assert (E : held_of (repeat vec_empty k) = []) by (induction k; auto). rewrite E. now apply pinv_init.
Qed.

Lemma needs_dec : forall o w, {needs_block o w} + {~ needs_block o w}.
Proof.
  intros [i x c|i|i m c|i h|i|i|i j x|i j] w; cbn [needs_block]; try (right; exact (fun H => H)).
  - destruct (nth_error (wvecs w) i) as [v|]; [|right; intros [? [? _]]; discriminate].
    destruct (Nat.eq_dec (vsize v) (vcap v)); [left; eauto|right; intros [? [E ?]]; injection E as <-; contradiction].
  - destruct (nth_error (wvecs w) i) as [v|]; [|right; intros [? [? _]]; discriminate].
    destruct (lt_dec (vcap v) m); [left; eauto|right; intros [? [E ?]]; injection E as <-; contradiction].
  - destruct h; [|right; intros [? _]; discriminate].
    destruct (nth_error (wvecs w) i) as [v|]; [|right; intros [_ [? [? _]]]; discriminate].
    destruct (lt_dec 0 (vsize v)), (lt_dec (vsize v) (vcap v));
      [left; split; [reflexivity|]; exists v; split; [reflexivity|lia]|..]; right; intros [_ [? [E ?]]]; injection E as <-; lia.
Qed.

Lemma too_long_dec : forall bs cs o, {too_long bs cs o} + {~ too_long bs cs o}.
Proof. intros bs cs [i x c|i|i m c|i h|i|i|i j x|i j]; cbn [too_long]; try (right; exact (fun H => H)); [apply Z_le_dec|apply Z_lt_dec]. Qed.

Lemma users_le : forall L tsz cs w, winv L tsz cs w -> (users w <= l_num L)%nat.
Proof. intros L tsz cs w [_ [free P]]. rewrite users_held. apply pinv_length in P. lia. Qed.

Lemma vhistory_inv : forall L exc tsz k cs w, wf_layout L -> vhistory L exc tsz k cs w -> winv L tsz cs w.
Proof.
  intros L exc tsz k cs w W H. induction H as [|cs w o r w' H IH G T E]; [now apply winv_init|].
  destruct (vstep_spec L exc tsz cs w o W IH G T) as [A [B C]].
  destruct (too_long_dec (l_bs L) cs o) as [X|X].
  { rewrite (A X) in E. injection E as <- <-. exact IH. }
  destruct (needs_dec o w) as [Y|Y].
  - pose proof (users_le _ _ _ _ IH) as U. destruct (Nat.eq_dec (users w) (l_num L)) as [Z|Z].
    + rewrite (B X Y Z) in E. destruct exc; [|discriminate]. injection E as <- <-.
      destruct o; try exact IH.
    + destruct (C X ltac:(lia)) as [w'' [E' I']]. rewrite E' in E. injection E as <- <-. destruct o; exact I'.
  - destruct (C X (fun y => False_ind _ (Y y))) as [w'' [E' I']]. rewrite E' in E. injection E as <- <-. destruct o; exact I'.
Qed.

Lemma vhistory_length : forall L exc tsz k cs w, vhistory L exc tsz k cs w -> length cs = k.
Proof.
  intros L exc tsz k cs w H. induction H as [|cs w o r w' H IH G T E]; [apply repeat_length|].
  destruct (failed r); [exact IH|]. destruct o; cbn [after]; rewrite ?length_replace; exact IH.
Qed.

(** If max_size() elements fit, every array does. *)
Lemma all_fit : forall bs room tsz cs o, bs * Z.of_nat tsz <= room -> vlegal bs tsz cs o -> too_long bs cs o \/ vfits room tsz o.
Proof.
  intros bs room tsz cs [i x c|i|i m c|i h|i|i|i j x|i j] R G; cbn [vlegal too_long vfits] in *; try (right; exact Logic.I).
  - destruct G as [_ [_ G]]. destruct (Z_le_dec bs (Z.of_nat (length (the i cs)))); [left; assumption|right]. nia.
  - destruct G as [_ G]. destruct (Z_lt_dec bs (Z.of_nat m)); [left; assumption|right]. nia.
Qed.

Lemma lhistory_fits : forall L exc tsz k cs w, l_bs L * Z.of_nat tsz <= l_stride L ->
  lhistory L exc tsz k cs w -> vhistory L exc tsz k cs w.
Proof.
  intros L exc tsz k cs w R H. induction H as [|cs w o r w' H IH G E]; [constructor|].
  econstructor; eauto. eapply all_fit; eauto.
Qed.

(** Otherwise two vectors overlap: the first reserves max_size() elements, the second one; the first is then filled until it
    reaches the block behind its own. *)
Lemma nth_the0 : forall c (d : list elem), the 0 [c; d] = c.
Proof. reflexivity. Qed.

Lemma overlap_start : forall L exc tsz x, wf_layout L -> (2 <= l_num L)%nat -> (0 < tsz)%nat -> Z.of_nat tsz <= l_bs L ->
  length x = tsz ->
  exists s, lhistory L exc tsz 2 [[]; [x]] (World s [Vec (l_addr L 0) 0 (Z.to_nat (l_bs L)); Vec (l_addr L 1) 1 1]) /\
    load (bmem s) (l_addr L 1) tsz = x.
Proof.
  intros L exc tsz x W N T B Hx. destruct (wf_stride L W) as [S1 [S2 S3]].
  assert (Bp : 0 < l_bs L) by lia.
  pose proof (pinv_init L W) as I0.
  assert (EB : exists rest, blocks L = l_addr L 0 :: l_addr L 1 :: rest).
  { unfold blocks. destruct (l_num L) as [|[|n]]; [lia|lia|]. cbn [seq map]. eauto. }
  destruct EB as [rest EB]. rewrite EB in I0.
  assert (A0 : In (l_addr L 0) (blocks L)) by (rewrite EB; left; reflexivity).
  assert (A1 : In (l_addr L 1) (blocks L)) by (rewrite EB; right; left; reflexivity).
  destruct (block_range L _ W A0) as [_ [_ [_ [Z0 _]]]].
  destruct (block_range L _ W A1) as [_ [_ [_ [Z1 _]]]].
  destruct (alloc_some L exc (Z.of_nat (Z.to_nat (l_bs L))) 0 _ _ _ _ W I0 ltac:(lia)) as [s1 [E1 [M1 I1]]].
  destruct (alloc_some L exc (Z.of_nat 1) 0 _ _ _ _ W I1 ltac:(lia)) as [s2 [E2 [M2 I2]]].
  destruct (put_some L s2 _ _ (l_addr L 1) (l_addr L 1 + 0) x W I2 (or_introl eq_refl)) as [s3 [E3 [M3 I3]]]; [lia|lia|].
  exists s3.
  split.
  - change [[]; [x]] with (if failed VOk then [[]; []] else after (VPush 1 x 1) [[]; []]).
    eapply lhistory_step with (w := World s2 [Vec (l_addr L 0) 0 (Z.to_nat (l_bs L)); Vec (l_addr L 1) 0 1]).
    + change [[]; []] with (if failed VOk then [[]; []] else after (VReserve 1 1 1) [[]; []]).
      eapply lhistory_step with (w := World s1 [Vec (l_addr L 0) 0 (Z.to_nat (l_bs L)); vec_empty]).
      * change [[]; []] with (if failed VOk then repeat [] 2 else after (VReserve 0 (Z.to_nat (l_bs L)) (Z.to_nat (l_bs L))) (repeat [] 2)).
        eapply lhistory_step; [constructor| |].
        -- cbn [vlegal repeat length]. split; [lia|]. intros _. lia.
        -- cbn [vstep world_init wvecs wpool repeat nth_error]. unfold max_size.
           rewrite (proj2 (Z.ltb_ge _ _)) by lia. unfold vec_empty at 1. cbn [vcap].
           rewrite (proj2 (Nat.leb_gt _ _)) by lia. unfold relocate. rewrite E1. cbn [bind].
           rewrite (proj2 (Z.eqb_neq _ _) Z0).
           cbn [concat put_bytes bind vec_empty vsize vdata Nat.mul take_bytes bdeallocate Z.eqb Nat.add length replace_nth].
           reflexivity.
      * cbn [vlegal repeat length]. split; [lia|]. intros _. lia.
      * cbn [vstep wvecs wpool nth_error]. unfold max_size.
        rewrite (proj2 (Z.ltb_ge _ _)) by lia. unfold vec_empty at 1. cbn [vcap].
        rewrite (proj2 (Nat.leb_gt _ _)) by lia. unfold relocate. rewrite E2. cbn [bind].
        rewrite (proj2 (Z.eqb_neq _ _) Z1).
        cbn [concat put_bytes bind vec_empty vsize vdata Nat.mul take_bytes bdeallocate Z.eqb Nat.add length replace_nth].
        reflexivity.
    + cbn [vlegal the nth length]. split; [lia|]. split; [exact Hx|]. intros _. lia.
    + cbn [vstep wvecs wpool nth_error vsize vcap vdata Nat.ltb Nat.leb Nat.mul Z.of_nat]. rewrite E3. cbn [bind Nat.add replace_nth].
      reflexivity.
  - rewrite (load_ext_eq _ _ _ _ M3). rewrite Z.add_0_r. apply load_store_k. exact Hx.
Qed.

Lemma overlap_fill : forall L exc tsz x y n s, wf_layout L -> (2 <= l_num L)%nat -> (0 < tsz)%nat -> Z.of_nat tsz <= l_bs L ->
  length y = tsz -> Z.of_nat n <= l_bs L -> Z.of_nat (n * tsz) <= 2 * l_stride L ->
  lhistory L exc tsz 2 [[]; [x]] (World s [Vec (l_addr L 0) 0 (Z.to_nat (l_bs L)); Vec (l_addr L 1) 1 1]) ->
  exists s', lhistory L exc tsz 2 [repeat y n; [x]] (World s' [Vec (l_addr L 0) n (Z.to_nat (l_bs L)); Vec (l_addr L 1) 1 1]) /\
    forall a, l_addr L 0 <= a < l_addr L 0 + Z.of_nat (n * tsz) -> exists i, (i < tsz)%nat /\ bmem s' a = nth i y 0.
Proof.
  intros L exc tsz x y n s W N T B Hy. induction n as [|n IH]; intros Hn Hr H.
  - exists s. split; [exact H|]. intros a Ha. lia.
  - destruct (IH ltac:(lia) ltac:(lia) H) as [s1 [H1 M1]].
    destruct (wf_stride L W) as [S1 [S2 S3]].
    assert (A : l_addr L 0 = l_base L) by (unfold l_addr, block_address; lia).
    assert (Len : l_base L + 2 * l_stride L <= l_end L) by (unfold l_end; nia).
    exists (BPool (store (bmem s1) (l_addr L 0 + Z.of_nat (n * tsz)) y) (bhead s1)). split.
    + assert (Er : repeat y (S n) = repeat y n ++ [y]).
      { clear. induction n as [|n IH]; [reflexivity|]. cbn [repeat app] in *. now rewrite IH at 1. }
      rewrite Er.
      change [repeat y n ++ [y]; [x]] with (if failed VOk then [repeat y n; [x]] else after (VPush 0 y (Z.to_nat (l_bs L))) [repeat y n; [x]]).
      eapply lhistory_step; [exact H1| |].
      * cbn [vlegal the nth length]. rewrite repeat_length. split; [lia|]. split; [exact Hy|]. intros _. lia.
      * cbn [vstep wvecs wpool nth_error vsize vcap vdata]. rewrite (proj2 (Nat.ltb_lt _ _)) by lia.
        unfold put_bytes. destruct y as [|z t] eqn:Ey; [cbn in Hy; lia|]. rewrite <- Ey in *.
        unfold bwrite. rewrite (proj2 (Z.leb_le _ _)) by lia. rewrite (proj2 (Z.leb_le _ _)) by lia.
        cbn [andb bind replace_nth]. rewrite Nat.add_1_r. reflexivity.
    + intros a Ha. cbn [bmem]. destruct (Z_lt_dec a (l_addr L 0 + Z.of_nat (n * tsz))) as [Hlt|Hge].
      * rewrite store_out by lia. apply M1. lia.
      * rewrite store_in by lia. exists (Z.to_nat (a - (l_addr L 0 + Z.of_nat (n * tsz)))). split; [lia|reflexivity].
Qed.

Lemma overlap : forall L exc tsz, wf_layout L -> (2 <= l_num L)%nat -> (0 < tsz)%nat -> Z.of_nat tsz <= l_bs L ->
  l_stride L < l_bs L * Z.of_nat tsz ->
  exists cs w l, lhistory L exc tsz 2 cs w /\ the 1 cs = [repeat 0 tsz] /\ vstep L exc tsz (VGet 1 0) w = Ret (VElem l, w) /\
    l <> repeat 0 tsz.
Proof.
  intros L exc tsz W N T B O. destruct (wf_stride L W) as [S1 [S2 S3]].
  destruct (overlap_start L exc tsz (repeat 0 tsz) W N T B (repeat_length _ _)) as [s [H _]].
  set (n := S (Z.to_nat (l_stride L / Z.of_nat tsz))).
  pose proof (Z.div_mod (l_stride L) (Z.of_nat tsz) ltac:(lia)) as D.
  pose proof (Z.mod_pos_bound (l_stride L) (Z.of_nat tsz) ltac:(lia)) as D2.
  assert (D0 : 0 <= l_stride L / Z.of_nat tsz) by (apply Z.div_pos; lia).
  assert (Nn : Z.of_nat n = l_stride L / Z.of_nat tsz + 1) by (unfold n; lia).
  assert (Nm : Z.of_nat (n * tsz) = Z.of_nat tsz * (l_stride L / Z.of_nat tsz) + Z.of_nat tsz) by (rewrite Nat2Z.inj_mul, Nn; lia).
  destruct (overlap_fill L exc tsz (repeat 0 tsz) (repeat 1 tsz) n s W N T B (repeat_length _ _)) as [s' [H' M]];
    [nia|lia|exact H|].
  exists [repeat (repeat 1 tsz) n; [repeat 0 tsz]], (World s' [Vec (l_addr L 0) n (Z.to_nat (l_bs L)); Vec (l_addr L 1) 1 1]).
  exists (load (bmem s') (l_addr L 1) tsz). split; [exact H'|]. split; [reflexivity|].
  assert (A0 : l_addr L 0 = l_base L) by (unfold l_addr, block_address; lia).
  assert (A1 : l_addr L 1 = l_base L + l_stride L) by (unfold l_addr, block_address; lia).
  assert (Len : l_base L + 2 * l_stride L <= l_end L) by (unfold l_end; nia).
  split.
  - cbn [vstep wvecs wpool nth_error vsize vcap vdata Nat.ltb Nat.leb Nat.mul Z.of_nat].
    unfold take_bytes. destruct tsz as [|t] eqn:Et; [lia|]. rewrite <- Et in *.
    unfold bread. rewrite (proj2 (Z.leb_le _ _)) by lia. rewrite (proj2 (Z.leb_le _ _)) by lia.
    cbn [andb bind]. now rewrite Z.add_0_r.
  - intros E. destruct (M (l_addr L 1) ltac:(lia)) as [i [Hi Em]].
    assert (X : nth 0 (load (bmem s') (l_addr L 1) tsz) 0 = nth 0 (repeat 0 tsz) 0) by now rewrite E.
    rewrite load_nth in X by lia. rewrite Z.add_0_r, Em in X.
    rewrite nth_repeat in X. rewrite (nth_indep _ _ 1) in X by (rewrite repeat_length; exact Hi).
    rewrite nth_repeat in X. discriminate.
Qed.

(** Running calls of which none can fail. *)
Fixpoint plain (L : layout) (tsz : nat) (ops : list vop) (cs : contents) : Prop :=
  match ops with
  | [] => True
  | o :: t => vlegal (l_bs L) tsz cs o /\ vfits (l_stride L) tsz o /\ ~ too_long (l_bs L) cs o /\ plain L tsz t (after o cs)
  end.
Fixpoint answers (ops : list vop) (cs : contents) : list vobs :=
  match ops with
  | [] => []
  | o :: t => (match o with VGet v i => VElem (nth i (the v cs) []) | _ => VOk end) :: answers t (after o cs)
  end.
Fixpoint finally (ops : list vop) (cs : contents) : contents :=
  match ops with [] => cs | o :: t => finally t (after o cs) end.

Lemma users_vecs : forall L tsz cs w, winv L tsz cs w -> (users w <= length cs)%nat.
Proof.
  intros L tsz cs w [F _]. rewrite (forall2_length _ _ _ _ _ F). unfold users.
  generalize (fun v : vec => negb (vcap v =? 0)%nat). intros f. clear. induction (wvecs w) as [|v t IH]; [reflexivity|].
  cbn. destruct (f v); cbn; lia.
Qed.

Lemma after_length : forall o cs, length (after o cs) = length cs.
Proof. intros [i x c|i|i m c|i h|i|i|i j x|i j] cs; cbn [after]; rewrite ?length_replace; reflexivity. Qed.

Lemma plain_run : forall L exc tsz ops cs w, wf_layout L -> winv L tsz cs w -> (length cs < l_num L)%nat ->
  plain L tsz ops cs ->
  exists w', vrun L exc tsz ops w = Ret (answers ops cs, w') /\ winv L tsz (finally ops cs) w'.
Proof.
  intros L exc tsz ops. induction ops as [|o t IH]; intros cs w W I Hk Hp.
  - exists w. split; [reflexivity|exact I].
  - destruct Hp as [G [T [X Hp]]]. destruct (vstep_spec L exc tsz cs w o W I G (or_intror T)) as [_ [_ C]].
    pose proof (users_vecs _ _ _ _ I) as U. destruct (C X ltac:(lia)) as [w1 [E I1]].
    destruct (IH (after o cs) w1 W I1 ltac:(rewrite after_length; exact Hk) Hp) as [w2 [E2 I2]].
    exists w2. split; [|exact I2]. cbn [vrun answers]. rewrite E. cbn [bind]. rewrite E2. reflexivity.
Qed.

(** The node-based container. *)
Definition mheld (m : umap) : list Z := unodes m ++ if ubuckets m =? 0 then [] else [ubuckets m].

Definition minv (L : layout) (nodes : list (list Z)) (m : umap) (s : bpool) : Prop :=
  (exists free, pinv L s (mheld m) free) /\
  Forall2 (fun node p => Z.of_nat (length node) <= l_bs L /\ load (bmem s) p (length node) = node) nodes (unodes m).

Lemma nodes_agree : forall L m m' nodes ps, l_bs L <= l_stride L -> agrees L m m' ps ->
  Forall2 (fun node p => Z.of_nat (length node) <= l_bs L /\ load m p (length node) = node) nodes ps ->
  Forall2 (fun node p => Z.of_nat (length node) <= l_bs L /\ load m' p (length node) = node) nodes ps.
Proof.
  intros L m m' nodes ps S A F. induction F as [|node p nodes ps [H1 H2] F IH]; constructor.
  - split; [exact H1|]. rewrite <- H2 at 2. apply load_ext. intros x Hx. apply (A p); [left; reflexivity|lia].
  - apply IH. intros a x Ha Hx. apply (A a x); [right; exact Ha|exact Hx].
Qed.

Lemma occupied_held : forall m, occupied m = length (mheld m).
Proof. intros m. unfold occupied, mheld. rewrite app_length. destruct (ubuckets m =? 0)%Z; reflexivity. Qed.

Lemma store_agrees : forall L s s' held free p a l O, wf_layout L -> pinv L s held free -> In p held ->
  (forall b, In b O -> In b held /\ b <> p) -> p <= a -> a + Z.of_nat (length l) <= p + l_bs L ->
  (forall x, bmem s' x = store (bmem s) a l x) -> agrees L (bmem s) (bmem s') O.
Proof.
  intros L s s' held free p a l O W I Hp HO H1 H2 M b x Hb Hx. destruct (wf_stride L W) as [S1 _].
  destruct (HO b Hb) as [Hin Nb]. rewrite M. apply store_out.
  destruct (held_apart L s held free b p W I Hin Hp Nb); lia.
Qed.

Lemma agrees_trans : forall L m1 m2 m3 O, agrees L m1 m2 O -> agrees L m2 m3 O -> agrees L m1 m3 O.
Proof. intros L m1 m2 m3 O A B a x Ha Hx. rewrite (B a x Ha Hx). exact (A a x Ha Hx). Qed.

Lemma perm_tail2 : forall (q p : Z) l, Permutation (q :: p :: l) (l ++ [p; q]).
Proof.
  intros q p l. change (q :: p :: l) with ([q; p] ++ l). rewrite Permutation_app_comm. apply Permutation_app_head. apply perm_swap.
Qed.

Lemma umap_insert_spec : forall L exc nodes m s node rehash, wf_layout L -> minv L nodes m s ->
  Z.of_nat (length node) <= l_bs L ->
  match rehash with Some nb => (0 < nb)%nat /\ Z.of_nat (nb * l_ps L) <= l_bs L | None => True end ->
  let need := match rehash with Some _ => 2%nat | None => 1%nat end in
  ((occupied m + need <= l_num L)%nat ->
     exists m' s', umap_insert L exc node rehash m s = Ret (Some m', s') /\ minv L (nodes ++ [node]) m' s' /\
       occupied m' = (length nodes + 1 + match rehash with Some _ => 1 | None => if (ubuckets m =? 0)%Z then 0 else 1 end)%nat) /\
  ((l_num L < occupied m + need)%nat ->
     if exc then exists s', umap_insert L exc node rehash m s = Ret (None, s') /\ minv L nodes m s'
     else umap_insert L exc node rehash m s = UB).
Proof.
  intros L exc nodes m s node rehash W [[free P] F] Hn Hr need. destruct (wf_stride L W) as [S1 [S2 S3]].
  pose proof (pinv_length _ _ _ _ P) as Len. rewrite <- occupied_held in Len.
  pose proof (forall2_length _ _ _ _ _ F) as Ln.
  assert (B1 : 1 <= l_bs L) by (destruct W as [_ [B _]]; lia).
  unfold umap_insert.
  destruct free as [|p free].
  { split; [intros H; subst need; cbn in Len; destruct rehash; lia|]. intros _.
    rewrite (alloc_refuse L exc 1 0 s _ [] P) by (right; reflexivity).
    destruct exc; [|reflexivity]. exists s. split; [reflexivity|]. split; [exists []; exact P|exact F]. }
  cbn [length] in Len.
  destruct (alloc_some L exc 1 0 s _ p free W P B1) as [s1 [E1 [M1 P1]]].
  destruct (block_range L p W (pinv_in _ _ _ _ p P (or_introl (or_introl eq_refl)))) as [_ [_ [_ [Nz _]]]].
  destruct (put_some L s1 _ free p p node W P1 (or_introl eq_refl) ltac:(lia) ltac:(lia)) as [s2 [E2 [M2 P2]]].
  assert (Np : ~ In p (mheld m)).
  { intros H. pose proof (pinv_nodup _ _ _ _ W P1) as N. apply nodup_app_parts in N. destruct N as [_ [N _]].
    inversion N; contradiction. }
  assert (A2 : agrees L (bmem s) (bmem s2) (mheld m)).
  { rewrite <- M1. eapply store_agrees with (s := s1) (p := p) (a := p) (l := node); try eassumption; try lia; [left; reflexivity|].
    intros b Hb. split; [right; exact Hb|]. intros ->. contradiction. }
  assert (D2 : load (bmem s2) p (length node) = node) by (rewrite (load_ext_eq _ _ _ _ M2); apply load_store).
  rewrite E1. cbn [bind]. rewrite (proj2 (Z.eqb_neq _ _) Nz), E2. cbn [bind].
  assert (Fn : forall s', agrees L (bmem s) (bmem s') (unodes m) -> load (bmem s') p (length node) = node ->
    Forall2 (fun node p => Z.of_nat (length node) <= l_bs L /\ load (bmem s') p (length node) = node) (nodes ++ [node]) (unodes m ++ [p])).
  { intros s' A D. apply Forall2_app; [eapply nodes_agree; eassumption|]. repeat constructor; [exact Hn|exact D]. }
  destruct rehash as [nb|].
  - destruct Hr as [Hnb Hr]. subst need. destruct free as [|q free].
    + split; [intros H; cbn in Len; lia|]. intros _.
      rewrite (alloc_refuse L exc (Z.of_nat nb) 0 s2 _ [] P2) by (right; reflexivity).
      destruct exc; [|reflexivity]. cbn [brefused bind].
      destruct (free_some L s2 _ [] p W P2 (or_introl eq_refl)) as [s4 [E4 [M4 P4]]]. rewrite E4. cbn [bind].
      exists s4. split; [reflexivity|]. split.
      * exists [p]. cbn [remove] in P4. destruct (Z.eq_dec p p) as [_|X]; [|congruence].
        rewrite notin_remove in P4 by exact Np. exact P4.
      * eapply nodes_agree; [exact S1| |exact F]. eapply agrees_trans.
        -- intros a x Ha Hx. apply (A2 a x); [apply in_or_app; left; exact Ha|exact Hx].
        -- intros a x Ha Hx. apply M4.
           assert (Na : a <> p) by (intros ->; apply Np; apply in_or_app; left; exact Ha).
           destruct (held_apart L s2 _ _ a p W P2 (or_intror (in_or_app _ _ _ (or_introl Ha))) (or_introl eq_refl) Na); lia.
    + split; [|intros H; cbn in Len; lia]. intros _.
      assert (Hq : Z.of_nat nb <= l_bs L) by (destruct W as [_ [_ [Hp _]]]; nia).
      destruct (alloc_some L exc (Z.of_nat nb) 0 s2 _ q free W P2 Hq) as [s3 [E3 [M3 P3]]].
      destruct (block_range L q W (pinv_in _ _ _ _ q P2 (or_introl (or_introl eq_refl)))) as [_ [_ [_ [Nzq _]]]].
      rewrite E3. cbn [bind]. rewrite (proj2 (Z.eqb_neq _ _) Nzq).
      destruct (put_some L s3 _ free q q (repeat 0 (nb * l_ps L)) W P3 (or_introl eq_refl) ltac:(lia)) as [s4 [E4 [M4 P4]]];
        [rewrite repeat_length; lia|].
      rewrite E4. cbn [bind].
      pose proof (pinv_nodup _ _ _ _ W P3) as N. apply nodup_app_parts in N. destruct N as [_ [N _]].
      inversion N as [|? ? N1 N2]; subst. inversion N2 as [|? ? N3 N4]; subst.
      assert (A4 : agrees L (bmem s2) (bmem s4) (p :: mheld m)).
      { rewrite <- M3. eapply store_agrees with (s := s3) (p := q) (a := q) (l := repeat 0 (nb * l_ps L));
          try eassumption; try lia; [left; reflexivity| |rewrite repeat_length; lia].
        intros b Hb. split; [right; exact Hb|]. intros ->. contradiction. }
      assert (D4 : load (bmem s4) p (length node) = node).
      { rewrite <- D2 at 2. apply load_ext. intros x Hx. apply (A4 p x); [left; reflexivity|lia]. }
      assert (A04 : agrees L (bmem s) (bmem s4) (mheld m)).
      { eapply agrees_trans; [exact A2|]. intros a x Ha. apply A4. right; exact Ha. }
      unfold mheld in *. destruct (Z.eqb_spec (ubuckets m) 0) as [Z0|Nb].
      * rewrite Z0. cbn [bdeallocate Z.eqb bind]. eexists _, s4. split; [reflexivity|]. rewrite app_nil_r in *.
        split; [split|].
        -- exists free. unfold mheld. cbn [unodes ubuckets]. rewrite (proj2 (Z.eqb_neq _ _) Nzq).
           eapply pinv_perm; [exact P4|]. rewrite <- app_assoc. cbn [app]. apply perm_tail2.
        -- cbn [unodes]. apply Fn; assumption.
        -- unfold occupied. cbn [unodes ubuckets]. rewrite (proj2 (Z.eqb_neq _ _) Nzq), app_length. cbn. lia.
      * destruct (free_some L s4 _ free (ubuckets m) W P4) as [s5 [E5 [M5 P5]]];
          [right; right; apply in_or_app; right; left; reflexivity|].
        rewrite E5. cbn [bind]. eexists _, s5. split; [reflexivity|].
        assert (Nq : q <> ubuckets m) by (intros ->; apply N1; right; apply in_or_app; right; left; reflexivity).
        assert (Npp : p <> ubuckets m) by (intros ->; apply N3; apply in_or_app; right; left; reflexivity).
        assert (Nu : ~ In (ubuckets m) (unodes m)).
        { intros H. apply nodup_app_parts in N4. destruct N4 as [_ [_ N5]]. apply (N5 _ H). left; reflexivity. }
        assert (Hub : In (ubuckets m) (q :: p :: unodes m ++ [ubuckets m])) by (right; right; apply in_or_app; right; left; reflexivity).
        assert (A5 : agrees L (bmem s4) (bmem s5) (p :: unodes m)).
        { intros a x Ha Hx. apply M5.
          assert (Na : a <> ubuckets m) by (destruct Ha as [<-|Ha]; [exact Npp|intros ->; contradiction]).
          assert (Hin : In a (q :: p :: unodes m ++ [ubuckets m])).
          { destruct Ha as [<-|Ha]; [right; left; reflexivity|right; right; apply in_or_app; left; exact Ha]. }
          destruct (held_apart L s4 _ _ a (ubuckets m) W P4 Hin Hub Na); lia. }
        split; [split|].
        -- exists (ubuckets m :: free). unfold mheld. cbn [unodes ubuckets]. rewrite (proj2 (Z.eqb_neq _ _) Nzq).
           eapply pinv_perm; [exact P5|]. cbn [remove].
           destruct (Z.eq_dec (ubuckets m) q) as [X|_]; [congruence|].
           destruct (Z.eq_dec (ubuckets m) p) as [X|_]; [congruence|].
           rewrite remove_app. cbn [remove]. destruct (Z.eq_dec (ubuckets m) (ubuckets m)) as [_|X]; [|congruence].
           rewrite notin_remove by exact Nu. rewrite app_nil_r. rewrite <- app_assoc. cbn [app]. apply perm_tail2.
        -- cbn [unodes]. apply Fn.
           ++ eapply agrees_trans.
              ** intros a x Ha. apply A04. apply in_or_app. left; exact Ha.
              ** intros a x Ha. apply A5. right; exact Ha.
           ++ rewrite <- D4 at 2. apply load_ext. intros x Hx. apply (A5 p x); [left; reflexivity|lia].
        -- unfold occupied. cbn [unodes ubuckets]. rewrite (proj2 (Z.eqb_neq _ _) Nzq), app_length. cbn. lia.
  - subst need. split; [|intros H; lia]. intros _. eexists _, s2. split; [reflexivity|]. split; [split|].
    + exists free. eapply pinv_perm; [exact P2|]. unfold mheld. cbn [unodes ubuckets]. rewrite <- app_assoc. cbn [app].
      apply Permutation_middle.
    + cbn [unodes]. apply Fn; [|exact D2]. intros a x Ha. apply A2. apply in_or_app. left; exact Ha.
    + unfold occupied. cbn [unodes ubuckets]. rewrite app_length. cbn. lia.
Qed.

Lemma mhistory_inv : forall L exc nodes m s, wf_layout L -> mhistory L exc nodes m s -> minv L nodes m s.
Proof.
  intros L exc nodes m s W H. induction H as [|nodes m s node rehash r s' H IH Hn Hr E].
  - split; [|constructor]. exists (blocks L). now apply pinv_init.
  - destruct (umap_insert_spec L exc nodes m s node rehash W IH Hn Hr) as [A B].
    set (need := match rehash with Some _ => 2%nat | None => 1%nat end) in *.
    destruct (le_lt_dec (occupied m + need) (l_num L)) as [X|X].
    + destruct (A X) as [m' [s'' [E' [I' _]]]]. rewrite E' in E. injection E as <- <-. exact I'.
    + specialize (B X). destruct exc; [|congruence]. destruct B as [s'' [E' I']]. rewrite E' in E. injection E as <- <-. exact I'.
Qed.

Lemma vrun_app : forall L exc tsz o1 o2 w rs1 w1 rs2 w2, vrun L exc tsz o1 w = Ret (rs1, w1) ->
  vrun L exc tsz o2 w1 = Ret (rs2, w2) -> vrun L exc tsz (o1 ++ o2) w = Ret (rs1 ++ rs2, w2).
Proof.
  intros L exc tsz o1. induction o1 as [|o t IH]; intros o2 w rs1 w1 rs2 w2 H1 H2.
  - cbn in H1. injection H1 as <- <-. exact H2.
  - cbn [vrun app] in *. destruct (vstep L exc tsz o w) as [[r wa]|]; [|discriminate]. cbn [bind] in *.
    destruct (vrun L exc tsz t wa) as [[rs wb]|] eqn:E; [|discriminate]. cbn [bind] in H1. injection H1 as <- <-.
    rewrite (IH o2 wa rs wb rs2 w2 E H2). reflexivity.
Qed.

Lemma destroy_last : forall L exc tsz w w' r, vstep L exc tsz (VDestroy 0) w = Ret (r, w') -> length (wvecs w) = 1%nat ->
  users w' = 0%nat.
Proof.
  intros L exc tsz w w' r E H. destruct (wvecs w) as [|v [|? ?]] eqn:V; try discriminate.
  cbn [vstep] in E. rewrite V in E. cbn [nth_error] in E.
  destruct (bdeallocate L (vdata v) (wpool w)) as [s'|]; [|discriminate]. cbn in E. injection E as _ <-. reflexivity.
Qed.

(** Calls on one vector of a pool with a spare block, and the vector's destruction. *)
Lemma single_vector : forall L exc tsz ops, wf_layout L -> (2 <= l_num L)%nat -> plain L tsz ops [[]] ->
  exists w, vrun L exc tsz (ops ++ [VDestroy 0]) (world_init L 1) = Ret (answers ops [[]] ++ [VOk], w) /\ users w = 0%nat.
Proof.
  intros L exc tsz ops W Hn Hp.
  destruct (plain_run L exc tsz ops [[]] (world_init L 1) W (winv_init L tsz 1 W) ltac:(cbn; lia) Hp) as [w1 [E1 I1]].
  assert (Hl : length (finally ops [[]]) = 1%nat).
  { clear. generalize (eq_refl : length ([[]] : contents) = 1%nat). generalize ([[]] : contents).
    induction ops as [|o t IH]; intros cs H; [exact H|]. cbn [finally]. apply IH. rewrite after_length. exact H. }
  destruct (vstep_spec L exc tsz (finally ops [[]]) w1 (VDestroy 0) W I1) as [_ [_ C]]; [cbn; lia|right; exact Logic.I|].
  destruct (C (fun x => x) (fun x => False_ind _ x)) as [w2 [E2 _]].
  exists w2. split.
  - eapply vrun_app; [exact E1|]. cbn [vrun]. rewrite E2. reflexivity.
  - eapply destroy_last; [exact E2|]. destruct I1 as [F _]. rewrite <- (forall2_length _ _ _ _ _ F). exact Hl.
Qed.
