(** C110, continued: the suite's vector tests as a program runs them. *)
From Coq Require Import ZArith Bool List Lia.
From Verif Require Import Outcome CanFrameModel PoolModel PoolBytesModel PoolBytesSpec ContainerModel ContainerSpec ContainerProofs VecSuiteModel
  VecSuiteSpec VecSuiteProofs Props_Container.
Import ListNotations.
Open Scope Z_scope.

(** In any order and number, with any vectors of the program in the pool, each test case's verdict depends on the number of
    free blocks and on what the standard library chooses; every vector, and so every block, is afterwards as it was. *)
Theorem C110_suite_verdicts : forall L exc k cs w rest ts, wf_layout L -> 10 <= l_bs L ->
  vhistory L exc 1 k cs w -> wvecs w = vec_empty :: rest -> Forall (chooses (l_bs L)) ts ->
  exc = true \/ Forall (fun t => (blocks_used t <= l_num L - users w)%nat) ts ->
  exists w', run_vtests L exc ts w = Ret (map (passes (l_num L - users w)) ts, w') /\
    vhistory L exc 1 k cs w' /\ wvecs w' = wvecs w.
Proof.
  intros L exc k cs w rest ts W Hb H V F X. pose proof (users_cons w _ _ V) as U. cbn in U. fold (count rest) in U. rewrite U in *.
  pose proof (vhistory_inv L exc 1 k cs w W H) as I.
  assert (E : exists csr, cs = [] :: csr).
  { destruct I as [F2 _]. rewrite V in F2. inversion F2 as [|c v cr vr Hv _ E1 E2]; subst. exists cr. f_equal.
    destruct Hv as [_ [Hs _]]. cbn in Hs. destruct c; [reflexivity|discriminate]. }
  destruct E as [csr ->].
  destruct (suite_run L exc k csr rest ts w W Hb) as [P _]; [split; [exact H|split; [exact V|reflexivity]]|exact F|].
  destruct (P X) as [w' [E [H' [V' _]]]]. exists w'. split; [exact E|]. split; [exact H'|congruence].
Qed.
Print Assumptions C110_suite_verdicts.
(** With two free blocks all pass, if reserve(10) makes the capacity ten. *)
Theorem C110_suite_accepted : forall L exc k cs w rest ts, wf_layout L -> 10 <= l_bs L ->
  vhistory L exc 1 k cs w -> wvecs w = vec_empty :: rest -> Forall (chooses (l_bs L)) ts -> (users w + 2 <= l_num L)%nat ->
  (forall newcap honoured, In (TestVectorCapacity newcap honoured) ts -> newcap = 10%nat) ->
  exists w', run_vtests L exc ts w = Ret (map (fun _ => true) ts, w') /\ vhistory L exc 1 k cs w' /\ wvecs w' = wvecs w.
Proof.
  intros L exc k cs w rest ts W Hb H V F U N.
  assert (B : forall t, (blocks_used t <= 2)%nat) by (intros [grow| |]; unfold blocks_used; [destruct (grow 0%nat <? 6)%nat; lia|lia|lia]).
  destruct (C110_suite_verdicts L exc k cs w rest ts W Hb H V F) as [w' [E R]].
  { right. apply Forall_forall. intros t _. specialize (B t). cbv beta in *. lia. }
  exists w'. split; [|exact R]. rewrite E. f_equal. f_equal. apply map_ext_in. intros t Ht. unfold passes.
  rewrite (proj2 (Nat.leb_le _ _)) by (specialize (B t); lia). destruct t as [g|nc h|nc]; try reflexivity.
  rewrite (N nc h Ht). reflexivity.
Qed.
Print Assumptions C110_suite_accepted.
(** Without exceptions too few blocks are not a failure but undefined. *)
Theorem C110_suite_undefined_iff : forall L k cs w rest ts, wf_layout L -> 10 <= l_bs L ->
  vhistory L false 1 k cs w -> wvecs w = vec_empty :: rest -> Forall (chooses (l_bs L)) ts ->
  (run_vtests L false ts w = UB <-> Exists (fun t => (l_num L - users w < blocks_used t)%nat) ts).
Proof.
  intros L k cs w rest ts W Hb H V F. split.
  - intros E. destruct (Exists_dec (fun t => (l_num L - users w < blocks_used t)%nat) ts (fun t => lt_dec _ _)) as [X|X]; [exact X|exfalso].
    destruct (C110_suite_verdicts L false k cs w rest ts W Hb H V F) as [w' [E' _]]; [|congruence].
    right. apply Forall_forall. intros t Ht. apply Nat.nlt_ge. intros Y. apply X. apply Exists_exists. exists t. auto.
  - intros X. pose proof (users_cons w _ _ V) as U. cbn in U. fold (count rest) in U. rewrite U in *.
    pose proof (vhistory_inv L false 1 k cs w W H) as I.
    assert (E : exists csr, cs = [] :: csr).
    { destruct I as [F2 _]. rewrite V in F2. inversion F2 as [|c v cr vr Hv _ E1 E2]; subst. exists cr. f_equal.
      destruct Hv as [_ [Hs _]]. cbn in Hs. destruct c; [reflexivity|discriminate]. }
    destruct E as [csr ->].
    destruct (suite_run L false k csr rest ts w W Hb) as [_ P]; [split; [exact H|split; [exact V|reflexivity]]|exact F|].
    exact (P eq_refl X).
Qed.
Print Assumptions C110_suite_undefined_iff.
(** libstdc++'s choices, two blocks of ten bytes, one of them in use by the program: TestVector, which has to move, fails, the
    others pass. *)
Definition doubles (s : nat) : nat := Nat.min 10 (s + Nat.max s 1).
Definition suite_case : list vtest := [TestVector doubles; TestEmplace 10; TestVectorCapacity 10 true].
Example C110_suite_case :
  wf_layout (pool64 2 10) /\ Forall (chooses (l_bs (pool64 2 10))) suite_case /\
  (forall r w, vstep (pool64 2 10) true 1 (VPush 1 [7] 4) (world_init (pool64 2 10) 2) = Ret (r, w) ->
     failed r = false -> vhistory (pool64 2 10) true 1 2 [[]; [[7]]] w) /\
  match vstep (pool64 2 10) true 1 (VPush 1 [7] 4) (world_init (pool64 2 10) 2) with
  | Ret (VOk, w) =>
      match run_vtests (pool64 2 10) true suite_case w with
      | Ret (bs, w') => bs = [false; true; true] /\
          match vstep (pool64 2 10) true 1 (VGet 1 0) w' with Ret (r, _) => r = VElem [7] | UB => False end
      | UB => False
      end
  | _ => False
  end.
Proof.
  split; [apply pool64_wf|]. split.
  { change (l_bs (pool64 2 10)) with 10. unfold suite_case.
    repeat (apply Forall_cons; [cbn [chooses]; try intros s Hs; unfold doubles; lia|]). apply Forall_nil. }
  split.
  - intros r w E Hr.
    assert (K : vhistory (pool64 2 10) true 1 2 (if failed r then repeat [] 2 else after (VPush 1 [7] 4) (repeat [] 2)) w).
    { eapply vhistory_step; [apply vhistory_init| | |exact E]; [cbn; intuition lia|right; vm_compute; discriminate]. }
    rewrite Hr in K. exact K.
  - vm_compute. split; reflexivity.
Qed.
