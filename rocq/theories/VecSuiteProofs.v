(** Proofs about the validation suite's vector tests. *)
From Coq Require Import ZArith Bool List Lia.
From Verif Require Import Outcome CanFrameModel PoolModel PoolBytesModel PoolBytesSpec ContainerModel ContainerSpec PoolBytesProofs ContainerProofs
  VecSuiteModel VecSuiteSpec.
Import ListNotations.
Open Scope Z_scope.

Lemma step_ok : forall L exc k cs w o, wf_layout L -> vhistory L exc 1 k cs w -> vlegal (l_bs L) 1 cs o -> vfits (l_stride L) 1 o ->
  ~ too_long (l_bs L) cs o -> (needs_block o w -> (users w < l_num L)%nat) ->
  exists w', vstep L exc 1 o w = Ret (match o with VGet v i => VElem (nth i (the v cs) []) | _ => VOk end, w') /\
    vhistory L exc 1 k (after o cs) w'.
Proof.
  intros L exc k cs w o W H G T X N. pose proof (vhistory_inv L exc 1 k cs w W H) as I.
  destruct (vstep_spec L exc 1 cs w o W I G (or_intror T)) as [_ [_ C]]. destruct (C X N) as [w' [E _]].
  exists w'. split; [exact E|]. pose proof (vhistory_step L exc 1 k cs w o _ w' H G (or_intror T) E) as K.
  destruct o; exact K.
Qed.

Lemma step_refused : forall L exc k cs w o, wf_layout L -> vhistory L exc 1 k cs w -> vlegal (l_bs L) 1 cs o -> vfits (l_stride L) 1 o ->
  ~ too_long (l_bs L) cs o -> needs_block o w -> users w = l_num L ->
  vstep L exc 1 o w = if exc then Ret (refusal o, w) else UB.
Proof.
  intros L exc k cs w o W H G T X N U. pose proof (vhistory_inv L exc 1 k cs w W H) as I.
  destruct (vstep_spec L exc 1 cs w o W I G (or_intror T)) as [_ [C _]]. exact (C X N U).
Qed.

(** What the calls do to the vectors. *)
Lemma push_shape : forall L exc e nc w x rest w', wvecs w = x :: rest -> vstep L exc 1 (VPush 0 e nc) w = Ret (VOk, w') ->
  exists p, wvecs w' = Vec p (vsize x + 1) (if (vsize x <? vcap x)%nat then vcap x else nc) :: rest.
Proof.
  intros L exc e nc w x rest w' V E. cbn [vstep] in E. rewrite V in E. cbn [nth_error] in E.
  destruct (vsize x <? vcap x)%nat.
  - destruct (put_bytes L _ e (wpool w)) as [s|]; [|discriminate]. cbn in E. injection E as <-. eexists. reflexivity.
  - destruct (max_size (l_bs L) <=? Z.of_nat (vsize x)); [discriminate|]. unfold relocate in E.
    destruct (ballocate L exc (Z.of_nat nc) 0 (wpool w)) as [[[p| | |] s1]|]; try discriminate.
    cbn [bind] in E. destruct (p =? 0); [discriminate|].
    destruct (put_bytes L (p + Z.of_nat (vsize x * 1)) (concat [e]) s1) as [s2|]; [|discriminate]. cbn [bind] in E.
    destruct (take_bytes L (vdata x) (vsize x * 1) s2) as [old|]; [|discriminate]. cbn [bind] in E.
    destruct (put_bytes L p old s2) as [s3|]; [|discriminate]. cbn [bind] in E.
    destruct (bdeallocate L (vdata x) s3) as [s4|]; [|discriminate]. cbn [bind] in E. injection E as <-.
    exists p. reflexivity.
Qed.

Lemma reserve_shape : forall L exc m nc w x rest w', wvecs w = x :: rest -> vstep L exc 1 (VReserve 0 m nc) w = Ret (VOk, w') ->
  (vcap x < m)%nat -> exists p, wvecs w' = Vec p (vsize x) nc :: rest.
Proof.
  intros L exc m nc w x rest w' V E H. cbn [vstep] in E. rewrite V in E. cbn [nth_error] in E.
  destruct (max_size (l_bs L) <? Z.of_nat m); [discriminate|]. rewrite (proj2 (Nat.leb_gt _ _)) in E by lia. unfold relocate in E.
  destruct (ballocate L exc (Z.of_nat nc) 0 (wpool w)) as [[[p| | |] s1]|]; try discriminate.
  cbn [bind] in E. destruct (p =? 0); [discriminate|].
  cbn [concat put_bytes bind] in E.
  destruct (take_bytes L (vdata x) (vsize x * 1) s1) as [old|]; [|discriminate]. cbn [bind] in E.
  destruct (put_bytes L p old s1) as [s3|]; [|discriminate]. cbn [bind] in E.
  destruct (bdeallocate L (vdata x) s3) as [s4|]; [|discriminate]. cbn [bind length] in E. rewrite Nat.add_0_r in E. injection E as <-.
  exists p. reflexivity.
Qed.

Lemma shrink_shape : forall L exc hon w x rest w', wvecs w = x :: rest -> vstep L exc 1 (VShrink 0 hon) w = Ret (VOk, w') ->
  vsize x = 0%nat -> exists y, wvecs w' = y :: rest /\ (vcap y <= vcap x)%nat.
Proof.
  intros L exc hon w x rest w' V E H. cbn [vstep] in E. rewrite V in E. cbn [nth_error] in E. rewrite H in E.
  destruct (negb hon || (vcap x =? 0)%nat).
  - injection E as <-. exists x. split; [exact V|lia].
  - destruct (bdeallocate L (vdata x) (wpool w)) as [s|]; [|discriminate]. cbn in E. injection E as <-.
    exists vec_empty. split; [reflexivity|cbn; lia].
Qed.

Lemma destroy_shape : forall L exc w x rest r w', wvecs w = x :: rest -> vstep L exc 1 (VDestroy 0) w = Ret (r, w') ->
  wvecs w' = vec_empty :: rest.
Proof.
  intros L exc w x rest r w' V E. cbn [vstep] in E. rewrite V in E. cbn [nth_error] in E.
  destruct (bdeallocate L (vdata x) (wpool w)) as [s|]; [|discriminate]. cbn in E. injection E as _ <-. reflexivity.
Qed.

Lemma get_shape : forall L exc i w r w', vstep L exc 1 (VGet 0 i) w = Ret (r, w') -> w' = w.
Proof.
  intros L exc i w r w' E. cbn [vstep] in E. destruct (nth_error (wvecs w) 0) as [v|]; [|discriminate].
  destruct (i <? vsize v)%nat; [|discriminate]. destruct (take_bytes L _ 1 (wpool w)); [|discriminate]. cbn in E. now injection E as _ <-.
Qed.

Definition count (vs : list vec) : nat := length (List.filter (fun v => negb (vcap v =? 0)%nat) vs).
Lemma users_cons : forall w x rest, wvecs w = x :: rest -> users w = ((if (vcap x =? 0)%nat then 0 else 1) + count rest)%nat.
Proof. intros w x rest V. unfold users, count. rewrite V. cbn [List.filter]. destruct (vcap x =? 0)%nat; reflexivity. Qed.

(** The suite's vector holds [c], the others [csr]; they are [x] and [rest]. *)
Definition at_ (L : layout) (exc : bool) (k : nat) (c : list elem) (csr : contents) (x : vec) (rest : list vec) (w : world) : Prop :=
  vhistory L exc 1 k (c :: csr) w /\ wvecs w = x :: rest /\ vsize x = length c.

Lemma vtry_app : forall L exc a b w, vtry L exc (a ++ b) w =
  let* (ra, w1) := vtry L exc a w in
  match ra with
  | None => Ret (None, w1)
  | Some ra => let* (rb, w2) := vtry L exc b w1 in Ret (option_map (app ra) rb, w2)
  end.
Proof.
  intros L exc a b. induction a as [|o t IH]; intros w; cbn [vtry app bind].
  - destruct (vtry L exc b w) as [[[l|] w2]|]; reflexivity.
  - destruct (vstep L exc 1 o w) as [[r w1]|]; [|reflexivity]. cbn [bind].
    destruct r; try reflexivity; rewrite IH; destruct (vtry L exc t w1) as [[[ra|] w2]|]; cbn [bind option_map]; try reflexivity;
      destruct (vtry L exc b w2) as [[[rb|] w3]|]; reflexivity.
Qed.

(** push_back of some characters, [grow] as in the test. *)
Fixpoint pushes (grow : nat -> nat) (s : nat) (l : list Z) : list vop :=
  match l with [] => [] | c :: t => VPush 0 [c] (grow s) :: pushes grow (S s) t end.

Lemma pushes_run : forall L exc k grow csr rest l c x w, wf_layout L -> at_ L exc k c csr x rest w ->
  (forall s, Z.of_nat s < l_bs L -> (s < grow s)%nat /\ Z.of_nat (grow s) <= l_bs L) ->
  Z.of_nat (length c + length l) <= l_bs L -> (0 < vcap x)%nat ->
  let room := (length c + length l <=? vcap x)%nat || (count rest + 2 <=? l_num L)%nat in
  (room = true -> exists w' x', vtry L exc (pushes grow (length c) l) w = Ret (Some (repeat VOk (length l)), w') /\
     at_ L exc k (c ++ map (fun z => [z]) l) csr x' rest w') /\
  (room = false -> if exc then exists w' c' x', vtry L exc (pushes grow (length c) l) w = Ret (None, w') /\ at_ L exc k c' csr x' rest w'
                   else vtry L exc (pushes grow (length c) l) w = UB).
Proof.
  intros L exc k grow csr rest l. induction l as [|z t IH]; intros c x w W A Hg Hb Hc room.
  - destruct A as [H [V S]].
    assert (Hs : (vsize x <= vcap x)%nat).
    { pose proof (vhistory_inv L exc 1 k (c :: csr) w W H) as I.
      destruct (winv_split L 1 (c :: csr) w 0 I ltac:(cbn; lia)) as [c0 [y [ca [cb [va [vb [free [Ec [Ev [La [Lv [En [Et [Fa [Fb [Hy P]]]]]]]]]]]]]]]].
      rewrite V in En. cbn in En. injection En as <-. destruct Hy as [_ [_ [H3 _]]]. exact H3. }
    assert (R : room = true). { unfold room. cbn [length]. rewrite (proj2 (Nat.leb_le _ _)) by lia. reflexivity. }
    rewrite R. split; [|discriminate]. intros _. exists w, x. split; [reflexivity|]. cbn [map]. rewrite app_nil_r. split; auto.
  - destruct A as [H [V S]]. cbn [length] in Hb. destruct (Hg (length c) ltac:(lia)) as [Hg1 Hg2].
    pose proof (wf_stride L W) as [S1 _].
    assert (G : vlegal (l_bs L) 1 (c :: csr) (VPush 0 [z] (grow (length c)))).
    { cbn [vlegal the nth length]. repeat split; lia. }
    assert (T : vfits (l_stride L) 1 (VPush 0 [z] (grow (length c)))) by (cbn [vfits]; lia).
    assert (X : ~ too_long (l_bs L) (c :: csr) (VPush 0 [z] (grow (length c)))) by (cbn [too_long the nth]; lia).
    assert (Hs : (vsize x <= vcap x)%nat).
    { pose proof (vhistory_inv L exc 1 k (c :: csr) w W H) as I.
      destruct (winv_split L 1 (c :: csr) w 0 I ltac:(cbn; lia)) as [c0 [y [ca [cb [va [vb [free [Ec [Ev [La [Lv [En [Et [Fa [Fb [Hy P]]]]]]]]]]]]]]]].
      rewrite V in En. cbn in En. injection En as <-. destruct Hy as [_ [_ [H3 _]]]. exact H3. }
    pose proof (users_cons w x rest V) as U. rewrite (proj2 (Nat.eqb_neq (vcap x) 0)) in U by lia.
    pose proof (users_le _ _ _ _ (vhistory_inv L exc 1 k _ w W H)) as UL.
    cbn [pushes].
    destruct (Nat.eq_dec (users w) (l_num L)) as [Eu|Nu]; [destruct (Nat.eq_dec (vsize x) (vcap x)) as [Es|Ns]|].
    + (* refused *)
      assert (R : room = false). { unfold room. cbn [length]. rewrite !(proj2 (Nat.leb_gt _ _)) by lia. reflexivity. }
      rewrite R. split; [discriminate|]. intros _.
      pose proof (step_refused L exc k (c :: csr) w _ W H G T X) as Q.
      specialize (Q ltac:(cbn [needs_block]; rewrite V; exists x; split; [reflexivity|exact Es]) Eu).
      cbn [vtry]. rewrite Q. destruct exc; [|reflexivity]. cbn [bind refusal].
      exists w, c, x. split; [reflexivity|]. split; auto.
    + destruct (step_ok L exc k (c :: csr) w _ W H G T X) as [w1 [E1 H1]].
      { cbn [needs_block]. rewrite V. cbn [nth_error]. intros [y [Ey Hy]]. injection Ey as <-. lia. }
      destruct (push_shape L exc [z] _ w x rest w1 V E1) as [p V1]. rewrite (proj2 (Nat.ltb_lt _ _)) in V1 by lia.
      destruct (IH (c ++ [[z]]) (Vec p (vsize x + 1) (vcap x)) w1 W) as [P Q]; auto.
      { split; [exact H1|]. split; [exact V1|]. cbn [vsize]. rewrite app_length, S. reflexivity. }
      { rewrite app_length. cbn [length]. lia. }
      cbn [vcap] in P, Q.
      assert (En : length (c ++ [[z]]) = Datatypes.S (length c)) by (rewrite app_length; cbn; lia).
      rewrite En in P, Q. replace (Datatypes.S (length c) + length t)%nat with (length c + length (z :: t))%nat in P, Q by (cbn [length]; lia).
      fold room in P, Q. cbn [vtry]. rewrite E1. cbn [bind]. split; intros R.
      * destruct (P R) as [w' [x' [E2 A2]]]. rewrite E2. exists w', x'. split; [reflexivity|].
        rewrite <- app_assoc in A2. exact A2.
      * specialize (Q R). destruct exc; [|rewrite Q; reflexivity]. destruct Q as [w' [c' [x' [E2 A2]]]]. rewrite E2. exists w', c', x'. split; [reflexivity|exact A2].
    + destruct (step_ok L exc k (c :: csr) w _ W H G T X) as [w1 [E1 H1]]; [intros _; lia|].
      destruct (push_shape L exc [z] _ w x rest w1 V E1) as [p V1].
      set (nc := if (vsize x <? vcap x)%nat then vcap x else grow (length c)) in V1.
      assert (R : room = true). { unfold room. rewrite (proj2 (Nat.leb_le (count rest + 2) _)) by lia. apply orb_true_r. }
      rewrite R. split; [|discriminate]. intros _.
      destruct (IH (c ++ [[z]]) (Vec p (vsize x + 1) nc) w1 W) as [P _]; auto.
      { split; [exact H1|]. split; [exact V1|]. cbn [vsize]. rewrite app_length, S. reflexivity. }
      { rewrite app_length. cbn [length]. lia. }
      { cbn [vcap]. unfold nc. destruct (vsize x <? vcap x)%nat; lia. }
      rewrite (proj2 (Nat.leb_le (count rest + 2) _)), orb_true_r in P by lia. destruct (P eq_refl) as [w' [x' [E2 A2]]].
      rewrite app_length in E2. cbn [length] in E2. rewrite Nat.add_1_r in E2. cbn [vtry]. rewrite E1. cbn [bind]. rewrite E2.
      exists w', x'. split; [reflexivity|]. rewrite <- app_assoc in A2. exact A2.
Qed.

(** Reading all elements in a given order. *)
Lemma gets_run : forall L exc k csr rest c x is w, wf_layout L -> at_ L exc k c csr x rest w -> Forall (fun i => (i < length c)%nat) is ->
  vtry L exc (map (VGet 0) is) w = Ret (Some (map (fun i => VElem (nth i c [])) is), w).
Proof.
  intros L exc k csr rest c x is w W A F. induction F as [|i t Hi F IH]; [reflexivity|].
  destruct A as [H [V S]].
  destruct (step_ok L exc k (c :: csr) w (VGet 0 i) W H) as [w1 [E1 _]].
  { cbn [vlegal the nth length]. lia. } { exact Logic.I. } { cbn. auto. } { cbn. contradiction. }
  pose proof (get_shape L exc i w _ w1 E1) as ->. cbn [map vtry]. rewrite E1. cbn [bind the nth]. rewrite IH. reflexivity.
Qed.

Lemma destroy_run : forall L exc k c csr x rest w, wf_layout L -> at_ L exc k c csr x rest w ->
  exists w', vstep L exc 1 (VDestroy 0) w = Ret (VOk, w') /\ at_ L exc k [] csr vec_empty rest w'.
Proof.
  intros L exc k c csr x rest w W [H [V S]].
  destruct (step_ok L exc k (c :: csr) w (VDestroy 0) W H) as [w1 [E1 H1]].
  { cbn. lia. } { exact Logic.I. } { cbn. auto. } { cbn. contradiction. }
  exists w1. split; [exact E1|]. split; [exact H1|]. split; [exact (destroy_shape L exc w x rest _ w1 V E1)|reflexivity].
Qed.

Definition hello : list Z := [104; 101; 108; 108; 111; 0].

Lemma body_run : forall L exc k csr rest w t, wf_layout L -> 10 <= l_bs L -> at_ L exc k [] csr vec_empty rest w -> chooses (l_bs L) t ->
  (exc = true \/ (blocks_used t <= l_num L - count rest)%nat ->
     exists w' c x, vbody L exc t w = Ret (passes (l_num L - count rest) t, w') /\ at_ L exc k c csr x rest w') /\
  (exc = false -> (l_num L - count rest < blocks_used t)%nat -> vbody L exc t w = UB).
Proof.
  intros L exc k csr rest w t W Hb A Ht. pose proof (wf_stride L W) as [S1 _].
  pose proof A as [H [V S]]. pose proof (users_cons w vec_empty rest V) as U. cbn [vcap vec_empty Nat.eqb] in U.
  pose proof (users_le _ _ _ _ (vhistory_inv L exc 1 k _ w W H)) as UL.
  destruct t as [grow|newcap hon|newcap]; cbn [chooses] in Ht; unfold passes; cbn [blocks_used vbody].
  - (* TestVector *)
    assert (Es : removelast (test_vector grow) = VPush 0 [104] (grow 0%nat) :: pushes grow 1 [101; 108; 108; 111; 0] ++ map (VGet 0) [0; 0; 1; 2; 3; 4; 5]%nat)
      by reflexivity.
    rewrite Es. destruct (Ht 0%nat ltac:(lia)) as [G1 G2].
    assert (G : vlegal (l_bs L) 1 ([] :: csr) (VPush 0 [104] (grow 0%nat))) by (cbn [vlegal the nth length]; repeat split; lia).
    assert (T : vfits (l_stride L) 1 (VPush 0 [104] (grow 0%nat))) by (cbn [vfits]; lia).
    assert (X : ~ too_long (l_bs L) ([] :: csr) (VPush 0 [104] (grow 0%nat))) by (cbn [too_long the nth length]; lia).
    cbn [vtry].
    destruct (Nat.eq_dec (users w) (l_num L)) as [Eu|Nu].
    + pose proof (step_refused L exc k ([] :: csr) w _ W H G T X) as Q.
      specialize (Q ltac:(cbn [needs_block]; rewrite V; exists vec_empty; split; reflexivity) Eu). rewrite Q.
      split.
      * intros [-> | Hn]; [|exfalso; destruct (grow 0%nat <? 6)%nat; lia]. cbn [bind refusal reads_exactly].
        exists w, [], vec_empty. split; [|exact A]. rewrite (proj2 (Nat.leb_gt _ _)); [reflexivity|]. destruct (grow 0%nat <? 6)%nat; lia.
      * intros -> _. reflexivity.
    + destruct (step_ok L exc k ([] :: csr) w _ W H G T X) as [w1 [E1 H1]]; [intros _; lia|]. rewrite E1. cbn [bind].
      destruct (push_shape L exc [104] _ w vec_empty rest w1 V E1) as [p V1]. cbn [vsize vcap vec_empty Nat.ltb Nat.leb Nat.add] in V1.
      assert (A1 : at_ L exc k [[104]] csr (Vec p 1 (grow 0%nat)) rest w1) by (split; [exact H1|split; [exact V1|reflexivity]]).
      destruct (pushes_run L exc k grow csr rest [101; 108; 108; 111; 0] [[104]] _ w1 W A1 Ht) as [P Q]; [cbn [length]; lia|cbn [vcap]; lia|].
      cbn [length Nat.add vcap] in P, Q. rewrite vtry_app.
      assert (Er : (6 <=? grow 0%nat)%nat || (count rest + 2 <=? l_num L)%nat = ((if (grow 0%nat <? 6)%nat then 2 else 1) <=? l_num L - count rest)%nat).
      { destruct (Nat.ltb_spec (grow 0%nat) 6) as [Y|Y].
        - rewrite (proj2 (Nat.leb_gt 6 _)) by lia. cbn [orb]. destruct (Nat.leb_spec (count rest + 2) (l_num L)), (Nat.leb_spec 2 (l_num L - count rest)); try reflexivity; lia.
        - rewrite (proj2 (Nat.leb_le 6 _)) by lia. cbn [orb]. symmetry. apply Nat.leb_le. lia. }
      rewrite Er in P, Q. destruct (Nat.leb_spec (if (grow 0%nat <? 6)%nat then 2 else 1)%nat (l_num L - count rest)) as [Y|Y].
      * destruct (P eq_refl) as [w2 [x2 [E2 A2]]]. rewrite E2. cbn [bind].
        rewrite (gets_run L exc k csr rest _ x2 [0; 0; 1; 2; 3; 4; 5]%nat w2 W A2) by (repeat constructor).
        cbn [bind]. split; [|intros _ Z; lia]. intros _. exists w2. eexists _, x2. split; [reflexivity|exact A2].
      * specialize (Q eq_refl). destruct exc.
        -- destruct Q as [w2 [c2 [x2 [E2 A2]]]]. rewrite E2. cbn [bind]. split; [|discriminate]. intros _. exists w2, c2, x2. split; [reflexivity|exact A2].
        -- rewrite Q. split; [|reflexivity]. intros [Z|Z]; [discriminate|lia].
  - (* TestVectorCapacity *)
    destruct Ht as [C1 C2].
    assert (G : vlegal (l_bs L) 1 ([] :: csr) (VReserve 0 10 newcap)) by (cbn [vlegal length]; repeat split; lia).
    assert (T : vfits (l_stride L) 1 (VReserve 0 10 newcap)) by (cbn [vfits]; lia).
    assert (X : ~ too_long (l_bs L) ([] :: csr) (VReserve 0 10 newcap)) by (cbn [too_long]; lia).
    unfold test_capacity_reserve. cbn [vtry].
    destruct (Nat.eq_dec (users w) (l_num L)) as [Eu|Nu].
    + pose proof (step_refused L exc k ([] :: csr) w _ W H G T X) as Q.
      specialize (Q ltac:(cbn [needs_block]; rewrite V; exists vec_empty; split; [reflexivity|cbn; lia]) Eu). rewrite Q.
      split; [|intros -> _; reflexivity].
      intros [-> | Hn]; [|exfalso; lia]. cbn [bind refusal]. exists w, [], vec_empty. split; [|exact A].
      rewrite (proj2 (Nat.leb_gt _ _)) by lia. reflexivity.
    + destruct (step_ok L exc k ([] :: csr) w _ W H G T X) as [w1 [E1 H1]]; [intros _; lia|]. rewrite E1. cbn [bind option_map].
      destruct (reserve_shape L exc 10 newcap w vec_empty rest w1 V E1) as [p V1]; [cbn; lia|]. cbn [vsize vec_empty] in V1.
      split; [|intros _ Z; lia]. intros _. rewrite (proj2 (Nat.leb_le _ _)) by lia. cbn [andb].
      assert (A1 : at_ L exc k [] csr (Vec p 0 newcap) rest w1) by (split; [exact H1|split; [exact V1|reflexivity]]).
      replace (capacity w1) with newcap by (unfold capacity; rewrite V1; reflexivity). rewrite (Nat.eqb_sym 10).
      destruct (Nat.eqb_spec newcap 10) as [Y|Y].
      * destruct (step_ok L exc k ([] :: csr) w1 (VShrink 0 hon) W H1) as [w2 [E2 H2]].
        { cbn. lia. } { exact Logic.I. } { cbn. auto. }
        { cbn [needs_block]. rewrite V1. cbn [nth_error]. intros [_ [y [Ey Hy]]]. injection Ey as <-. cbn in Hy. lia. }
        destruct (shrink_shape L exc hon w1 (Vec p 0 newcap) rest w2 V1 E2 eq_refl) as [y [V2 Hy]]. cbn [vcap] in Hy.
        unfold test_capacity_shrink. cbn [vtry]. rewrite E2. cbn [bind option_map].
        replace (capacity w2) with (vcap y) by (unfold capacity; rewrite V2; reflexivity).
        rewrite (proj2 (Nat.leb_le _ _)) by lia. exists w2, [], y. split; [reflexivity|]. split; [exact H2|]. split; [exact V2|].
        pose proof (vhistory_inv L exc 1 k _ w2 W H2) as I. cbn [after] in I.
        destruct (winv_split L 1 ([] :: csr) w2 0 I ltac:(cbn; lia)) as [c0 [y0 [ca [cb [va [vb [free [Ec [Ev [La [Lv [En [Et [Fa [Fb [Hy0 P]]]]]]]]]]]]]]]].
        rewrite V2 in En. cbn in En. injection En as <-. cbn [the nth] in Et. subst c0. destruct Hy0 as [_ [H3 _]]. exact H3.
      * exists w1, [], (Vec p 0 newcap). split; [reflexivity|exact A1].
  - (* TestEmplace *)
    destruct Ht as [C1 C2].
    assert (G : vlegal (l_bs L) 1 ([] :: csr) (VReserve 0 10 newcap)) by (cbn [vlegal length]; repeat split; lia).
    assert (T : vfits (l_stride L) 1 (VReserve 0 10 newcap)) by (cbn [vfits]; lia).
    assert (X : ~ too_long (l_bs L) ([] :: csr) (VReserve 0 10 newcap)) by (cbn [too_long]; lia).
    replace (removelast (test_emplace newcap)) with ([VReserve 0 10 newcap; VPush 0 [49] newcap] ++ map (VGet 0) [0%nat]) by reflexivity.
    rewrite vtry_app. cbn [vtry]. rewrite andb_true_r.
    destruct (Nat.eq_dec (users w) (l_num L)) as [Eu|Nu].
    + pose proof (step_refused L exc k ([] :: csr) w _ W H G T X) as Q.
      specialize (Q ltac:(cbn [needs_block]; rewrite V; exists vec_empty; split; [reflexivity|cbn; lia]) Eu). rewrite Q.
      split; [|intros -> _; reflexivity].
      intros [-> | Hn]; [|exfalso; lia]. cbn [bind refusal reads_exactly]. exists w, [], vec_empty. split; [|exact A].
      rewrite (proj2 (Nat.leb_gt _ _)) by lia. reflexivity.
    + destruct (step_ok L exc k ([] :: csr) w _ W H G T X) as [w1 [E1 H1]]; [intros _; lia|]. rewrite E1. cbn [bind].
      destruct (reserve_shape L exc 10 newcap w vec_empty rest w1 V E1) as [p V1]; [cbn; lia|]. cbn [vsize vec_empty] in V1.
      split; [|intros _ Z; lia]. intros _. rewrite (proj2 (Nat.leb_le _ _)) by lia.
      destruct (step_ok L exc k ([] :: csr) w1 (VPush 0 [49] newcap) W H1) as [w2 [E2 H2]].
      { cbn [vlegal the nth length]. repeat split; lia. } { cbn [vfits]; lia. } { cbn [too_long the nth length]; lia. }
      { cbn [needs_block]. rewrite V1. cbn [nth_error]. intros [y [Ey Hy]]. injection Ey as <-. cbn in Hy. lia. }
      destruct (push_shape L exc [49] newcap w1 _ rest w2 V1 E2) as [p2 V2]. rewrite E2. cbn [bind option_map].
      assert (A2 : at_ L exc k [[49]] csr (Vec p2 1 (if (0 <? newcap)%nat then newcap else newcap)) rest w2) by (split; [exact H2|split; [exact V2|reflexivity]]).
      pose proof (gets_run L exc k csr rest _ _ [0%nat] w2 W A2 ltac:(repeat constructor)) as E3. cbn [map] in E3.
      fold (vtry L exc [VGet 0 0] w2). change (vtry L exc (map (VGet 0) [0%nat]) w2) with (vtry L exc [VGet 0 0] w2).
      rewrite E3. cbn [bind option_map]. exists w2. eexists _, _. split; [reflexivity|exact A2].
Qed.

Lemma suite_run : forall L exc k csr rest ts w, wf_layout L -> 10 <= l_bs L -> at_ L exc k [] csr vec_empty rest w ->
  Forall (chooses (l_bs L)) ts ->
  (exc = true \/ Forall (fun t => (blocks_used t <= l_num L - count rest)%nat) ts ->
     exists w', run_vtests L exc ts w = Ret (map (passes (l_num L - count rest)) ts, w') /\ at_ L exc k [] csr vec_empty rest w') /\
  (exc = false -> Exists (fun t => (l_num L - count rest < blocks_used t)%nat) ts -> run_vtests L exc ts w = UB).
Proof.
  intros L exc k csr rest ts. induction ts as [|t ts IH]; intros w W Hb A F.
  - split; [|intros _ Z; inversion Z]. intros _. exists w. split; [reflexivity|exact A].
  - inversion F as [|? ? Ht Fs]; subst. destruct (body_run L exc k csr rest w t W Hb A Ht) as [P Q].
    cbn [run_vtests]. unfold run_vtest.
    destruct (le_lt_dec (blocks_used t) (l_num L - count rest)) as [Y|Y].
    + destruct (P (or_intror Y)) as [w1 [c [x [E1 A1]]]]. rewrite E1. cbn [bind].
      destruct (destroy_run L exc k c csr x rest w1 W A1) as [w2 [E2 A2]]. rewrite E2. cbn [bind].
      destruct (IH w2 W Hb A2 Fs) as [P2 Q2]. split.
      * intros Z. destruct P2 as [w3 [E3 A3]].
        { destruct Z as [Z|Z]; [left; exact Z|right]. now inversion Z. }
        rewrite E3. exists w3. split; [reflexivity|exact A3].
      * intros Z1 Z2. rewrite (Q2 Z1); [reflexivity|]. inversion Z2; subst; [lia|assumption].
    + destruct exc.
      * destruct (P (or_introl eq_refl)) as [w1 [c [x [E1 A1]]]]. rewrite E1. cbn [bind].
        destruct (destroy_run L true k c csr x rest w1 W A1) as [w2 [E2 A2]]. rewrite E2. cbn [bind].
        destruct (IH w2 W Hb A2 Fs) as [P2 _]. split; [|discriminate]. intros _.
        destruct (P2 (or_introl eq_refl)) as [w3 [E3 A3]]. rewrite E3. exists w3. split; [reflexivity|exact A3].
      * rewrite (Q eq_refl Y). cbn [bind]. split; [|reflexivity].
        intros [Z|Z]; [discriminate|]. inversion Z; subst. lia.
Qed.
