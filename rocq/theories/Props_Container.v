(** C107-C111: the pool byte by byte, and containers that use it. *)
From Coq Require Import ZArith Bool List Lia Permutation.
From Verif Require Import Outcome CanFrameModel PoolModel PoolBytesModel PoolBytesSpec PoolBytesProofs
  ContainerModel ContainerSpec ContainerProofs.
Import ListNotations.
Open Scope Z_scope.

(** A 64-bit platform: pointers of 8 bytes, std::max_align_t of 32 bytes aligned to 16, storage_ at address 4096. *)
Definition pool64 (n : nat) (bs : Z) : layout := Layout n bs 8 32 16 4096.
Example pool64_wf : wf_layout (pool64 16 72) /\ l_stride (pool64 16 72) = 80 /\ wf_layout (pool64 2 10) /\ wf_layout (pool64 4 48).
Proof. repeat split; vm_compute; congruence || reflexivity || (repeat constructor). Qed.

(** C107. *)
Theorem C107_blocks_in_use_are_apart : forall L exc tr s size k a s', wf_layout L -> bhistory L exc tr s ->
  bstep L exc (BAlloc size k) s = Ret (BPtr a, s') -> a <> 0 ->
  size <= l_bs L /\ l_base L <= a /\ a + l_bs L <= l_end L /\ ((l_al L | l_base L) -> (l_al L | a)) /\
  (forall b, In b (addresses tr) -> a + l_bs L <= b \/ b + l_bs L <= a).
Proof.
  intros L exc tr s size k a s' W H E Nz. pose proof (bhistory_inv L exc tr s W H) as [I D].
  destruct (wf_stride L W) as [S1 _].
  destruct (bstep_safe L exc tr s (BAlloc size k) W (conj I D) Logic.I) as [r [s'' [E' [[I' _] R]]]].
  rewrite E in E'. injection E' as <- <-.
  destruct (Z.leb_spec size (l_bs L)) as [Hs|Hs]; [|destruct exc; cbn in R; congruence].
  destruct (bfree L tr) as [|a' free] eqn:F; [destruct exc; cbn in R; congruence|]. injection R as <-.
  assert (Ha : In a (blocks L)) by (apply (pinv_in _ _ _ _ a I); left; left; reflexivity).
  destruct (block_range L a W Ha) as [R1 [R2 _]]. split; [exact Hs|]. split; [exact R1|]. split; [lia|]. split.
  - intros Hd. apply in_blocks in Ha. destruct Ha as [i [_ ->]]. unfold l_addr, block_address.
    apply Z.divide_add_r; [exact Hd|]. apply Z.divide_mul_r. unfold l_stride.
    destruct W as [_ [Hb [_ [Hal _]]]]. apply (PoolProofs.stride_props _ _ _ _ Hb Hal).
  - intros b Hb. assert (Hbb : In b (blocks L)) by (apply (pinv_in _ _ _ _ b I); right; exact Hb).
    assert (N : a <> b).
    { intros ->. pose proof (pinv_nodup _ _ _ _ W I) as N. apply nodup_app_parts in N. destruct N as [_ [_ N]].
      apply (N b); [left; reflexivity|exact Hb]. }
    destruct (blocks_apart L a b W Ha Hbb N); lia.
Qed.
Print Assumptions C107_blocks_in_use_are_apart.
(** allocate answers null or throws exactly when the size is too large or all blocks are in use. *)
Theorem C107_refused_iff : forall L exc tr s size k r s', wf_layout L -> bhistory L exc tr s ->
  bstep L exc (BAlloc size k) s = Ret (r, s') ->
  (r = BPtr 0 \/ r = BThrow <-> l_bs L < size \/ length (addresses tr) = l_num L).
Proof.
  intros L exc tr s size k r s' W H E. pose proof (bhistory_inv L exc tr s W H) as [I D].
  destruct (bstep_safe L exc tr s (BAlloc size k) W (conj I D) Logic.I) as [r' [s'' [E' [_ R]]]].
  rewrite E in E'. injection E' as <- <-. pose proof (pinv_length _ _ _ _ I) as Len.
  destruct (Z.leb_spec size (l_bs L)) as [Hs|Hs].
  - destruct (bfree L tr) as [|a free] eqn:F; cbn [length] in Len.
    + split; [intros _; right; lia|]. intros _. subst r. destruct exc; [right|left]; reflexivity.
    + assert (Ha : In a (blocks L)) by (apply (pinv_in _ _ _ _ a I); left; left; reflexivity).
      destruct (block_range L a W Ha) as [_ [_ [_ [Nz _]]]]. subst r.
      split; [intros [X|X]; [injection X as X; contradiction|discriminate]|]. intros [X|X]; lia.
  - split; [intros _; left; exact Hs|]. intros _. subst r. destruct exc; [right|left]; reflexivity.
Qed.
Print Assumptions C107_refused_iff.
(** Every byte a client wrote to a block it holds is still there. *)
Theorem C107_bytes_survive : forall L exc tr s a k l s', wf_layout L -> bhistory L exc tr s ->
  own L tr a k -> bstep L exc (BRead a k) s = Ret (BBytes l, s') ->
  length l = k /\ forall i v, (i < k)%nat -> written_byte (l_bs L) tr (a + Z.of_nat i) = Some v -> nth i l 0 = v.
Proof.
  intros L exc tr s a k l s' W H O E. pose proof (bhistory_inv L exc tr s W H) as [I D].
  destruct (bstep_safe L exc tr s (BRead a k) W (conj I D) O) as [r' [s'' [E' [_ R]]]].
  rewrite E in E'. injection E' as <- <-. injection R as ->. split; [apply load_length|].
  intros i v Hi Hw. rewrite load_nth by exact Hi. destruct O as [b [Hb [O1 O2]]]. eapply D; [exact Hb|lia|exact Hw].
Qed.
Print Assumptions C107_bytes_survive.
Theorem C107_never_undefined : forall L exc tr s o, wf_layout L -> bhistory L exc tr s -> blegal L tr o ->
  exists r s', bstep L exc o s = Ret (r, s').
Proof.
  intros L exc tr s o W H G. destruct (bstep_safe L exc tr s o W (bhistory_inv L exc tr s W H) G) as [r [s' [E _]]]. eauto.
Qed.
Print Assumptions C107_never_undefined.
(** After a legal history a call is undefined exactly if it touches something other than storage_ or returns something
    other than a block. *)
Theorem C107_undefined_iff : forall L exc tr s o, wf_layout L -> bhistory L exc tr s ->
  (bstep L exc o s = UB <-> wild L o).
Proof.
  intros L exc tr s o W H. destruct (wf_stride L W) as [_ [_ SP]].
  destruct o as [size k|a|a l|a k]; cbn [wild bstep].
  - destruct (C107_never_undefined L exc tr s (BAlloc size k) W H Logic.I) as [r [s' E]]. cbn [bstep] in E. rewrite E.
    split; [discriminate|contradiction].
  - unfold bdeallocate. destruct (Z.eqb_spec a 0); [split; [discriminate|intros [X _]; contradiction]|].
    unfold set_next. destruct (is_block L a) eqn:B; cbn [bind].
    + split; [discriminate|]. intros [_ X]. exfalso. apply X. unfold is_block in B.
      apply andb_true_iff in B. destruct B as [B1 B3]. apply andb_true_iff in B1. destruct B1 as [B1 B2].
      apply Z.leb_le in B1. apply Z.ltb_lt in B2. apply Z.eqb_eq in B3. unfold l_end in B2.
      apply Z.mod_divide in B3; [|lia]. destruct B3 as [q Q].
      assert (0 <= q) by nia.
      assert (q < Z.of_nat (l_num L)) by nia.
      exists (Z.to_nat q). split; [lia|]. rewrite Z2Nat.id by lia. lia.
    + split; [|reflexivity]. intros _. split; auto. intros [i [Hi ->]].
      assert (In (l_addr L i) (blocks L)) as IB by (apply in_blocks; exists i; auto).
      destruct (block_range L _ W IB) as [R1 [R2 [R3 [R4 R5]]]].
      unfold l_addr, block_address in R3. congruence.
  - unfold bwrite, in_storage. fold (l_end L). destruct (Z.leb_spec (l_base L) a); cbn [andb bind]; [|split; auto; lia].
    destruct (Z.leb_spec (a + Z.of_nat (length l)) (l_end L)); cbn [bind]; split; try discriminate; auto; try lia.
  - unfold bread, in_storage. fold (l_end L). destruct (Z.leb_spec (l_base L) a); cbn [andb bind]; [|split; auto; lia].
    destruct (Z.leb_spec (a + Z.of_nat k) (l_end L)); cbn [bind]; split; try discriminate; auto; try lia.
Qed.
Print Assumptions C107_undefined_iff.
(** Two blocks taken, bytes written to one, the other returned, the bytes read. *)
Example C107_case : let L := pool64 3 16 in
  let tr := [(BFree 4128, BNone); (BWrite 4100 [1; 2; 3], BNone); (BAlloc 16 1, BPtr 4128); (BAlloc 3 0, BPtr 4096)] in
  (exists s, bhistory L false tr s) /\ own L tr 4099 4 /\ map (fun i => written_byte 16 tr (4099 + i)) [0; 1; 2; 3] = [None; Some 1; Some 2; Some 3].
Proof.
  cbv zeta. split; [|split].
  - eexists. eapply bhistory_step; [eapply bhistory_step; [eapply bhistory_step; [eapply bhistory_step;
      [apply bhistory_init|exact Logic.I|reflexivity]|exact Logic.I|reflexivity]|
      exists 4096; cbn; intuition lia|reflexivity]|right; left; reflexivity|reflexivity].
  - exists 4096. cbn. intuition lia.
  - reflexivity.
Qed.

(** C108. Full statement: for every platform, element size and history of vectors over one pool that obeys the rules of
    std::vector, whatever capacities the vectors ask for,
    [vstep L exc tsz (VGet v i) w = Ret (VElem (nth i (the v cs) []), w)]. False for most elements of more than a byte: a vector of
    16 four-byte elements fits into a 48-byte block as far as the pool can tell. Here the capacity doubles, as in libstdc++:
    the 13th element of the first vector overwrites the first element of the second. *)
Definition int32 (n : Z) : elem := [n; 0; 0; 0].
Definition pushes (v : nat) (first : nat) (caps : list nat) : list vop :=
  map (fun x => VPush v (int32 (Z.of_nat (first + fst x))) (snd x)) (combine (seq 0 (length caps)) caps).
Definition overlap_ops : list vop :=
  pushes 0 0 [1; 2; 4; 4; 8; 8; 8; 8; 16; 16; 16; 16]%nat ++ [VPush 1 (int32 77) 1; VGet 1 0; VPush 0 (int32 12) 16; VGet 1 0].
Theorem C108_elements_refuted : exists w,
  wf_layout (pool64 4 48) /\
  vrun (pool64 4 48) true 4 overlap_ops (world_init (pool64 4 48) 2) =
    Ret (repeat VOk 13 ++ [VElem (int32 77); VOk; VElem (int32 12)], w).
Proof.
  assert (C : match vrun (pool64 4 48) true 4 overlap_ops (world_init (pool64 4 48) 2) with
              | Ret (rs, _) => rs = repeat VOk 13 ++ [VElem (int32 77); VOk; VElem (int32 12)] | UB => False end)
    by (vm_compute; reflexivity).
  destruct (vrun (pool64 4 48) true 4 overlap_ops (world_init (pool64 4 48) 2)) as [[rs w]|]; [|contradiction].
  exists w. split; [apply pool64_wf|]. rewrite C. reflexivity.
Qed.
Print Assumptions C108_elements_refuted.
(** It holds if every array asked for fits into the distance of two blocks (sizeof(Block), at least the block size), for any
    number of vectors, with and without exceptions. *)
Theorem C108_elements_partial : forall L exc tsz k cs w v i, wf_layout L -> vhistory L exc tsz k cs w ->
  (v < k)%nat -> (i < length (the v cs))%nat ->
  vstep L exc tsz (VGet v i) w = Ret (VElem (nth i (the v cs) []), w).
Proof.
  intros L exc tsz k cs w v i W H Hv Hi. pose proof (vhistory_inv L exc tsz k cs w W H) as I.
  pose proof (vhistory_length L exc tsz k cs w H) as Hk.
  destruct (vstep_spec L exc tsz cs w (VGet v i) W I (conj (eq_ind_r _ Hv Hk) Hi) (or_intror Logic.I)) as [_ [_ C]].
  destruct (C (fun x => x) (fun x => False_ind _ x)) as [w' [E _]]. cbn [vstep] in *.
  destruct (nth_error (wvecs w) v) as [x|]; [|discriminate]. destruct (i <? vsize x)%nat; [|discriminate].
  destruct (take_bytes L (vdata x + Z.of_nat (i * tsz)) tsz (wpool w)) as [l|]; [|discriminate].
  cbn [bind] in *. injection E as -> _. reflexivity.
Qed.
Print Assumptions C108_elements_partial.
Theorem C108_size_and_capacity : forall L exc tsz k cs w v x, wf_layout L -> vhistory L exc tsz k cs w ->
  nth_error (wvecs w) v = Some x ->
  vsize x = length (the v cs) /\ (vsize x <= vcap x)%nat /\ Z.of_nat (vcap x) <= l_bs L.
Proof.
  intros L exc tsz k cs w v x W H E. pose proof (vhistory_inv L exc tsz k cs w W H) as I.
  assert (Hv : (v < length cs)%nat).
  { destruct I as [F _]. rewrite (forall2_length _ _ _ _ _ F). apply nth_error_Some. congruence. }
  destruct (winv_split L tsz cs w v I Hv) as [c [y [ca [cb [va [vb [free [Ec [Ev [La [Lv [En [Et [Fa [Fb [Hy P]]]]]]]]]]]]]]]].
  rewrite En in E. injection E as <-. rewrite Et. destruct Hy as [_ [H2 [H3 [_ [H5 _]]]]]. auto.
Qed.
Print Assumptions C108_size_and_capacity.
(** So the claim is true of exactly those element types of which as many as the block has bytes fit between two blocks: one
    byte elements, and others only in blocks so small that the padding makes up for it. For all others a vector that
    reserves max_size() elements and stays within them overwrites an element of another vector. *)
Theorem C108_elements_iff : forall L exc tsz, wf_layout L -> (2 <= l_num L)%nat -> (0 < tsz)%nat -> Z.of_nat tsz <= l_bs L ->
  ((forall k cs w v i, lhistory L exc tsz k cs w -> (v < k)%nat -> (i < length (the v cs))%nat ->
      vstep L exc tsz (VGet v i) w = Ret (VElem (nth i (the v cs) []), w)) <->
   l_bs L * Z.of_nat tsz <= l_stride L).
Proof.
  intros L exc tsz W N T B. split.
  - intros H. destruct (Z_le_dec (l_bs L * Z.of_nat tsz) (l_stride L)) as [X|X]; [exact X|exfalso].
    destruct (overlap L exc tsz W N T B ltac:(lia)) as [cs [w [l [Hh [E [G D]]]]]].
    rewrite (H 2%nat cs w 1%nat 0%nat Hh ltac:(lia)) in G by (rewrite E; cbn; lia).
    rewrite E in G. cbn [nth] in G. apply D. congruence.
  - intros R k cs w v i H. apply C108_elements_partial; [exact W|now apply lhistory_fits].
Qed.
Print Assumptions C108_elements_iff.
Theorem C108_bytes_always_fit : forall L, wf_layout L -> l_bs L * Z.of_nat 1 <= l_stride L.
Proof. intros L W. destruct (wf_stride L W). lia. Qed.
Print Assumptions C108_bytes_always_fit.
Example C108_elements_iff_case : wf_layout (pool64 4 48) /\ l_stride (pool64 4 48) = 48 /\ ~ 48 * 2 <= l_stride (pool64 4 48) /\
  wf_layout (pool64 2 2) /\ 2 * 2 <= l_stride (pool64 2 2).
Proof. split; [apply pool64_wf|]. split; [reflexivity|]. split; [vm_compute; intros H; apply H; reflexivity|]. split; [|vm_compute; discriminate]. repeat split; vm_compute; congruence || lia. Qed.
Example C108_case : exists w, vhistory (pool64 3 16) true 2 2 [[[1; 2]; [7; 8]]; []] w.
Proof.
  eexists.
  change [[[1; 2]; [7; 8]]; []] with (if failed VOk then [[[1; 2]; [3; 4]]; []] else after (VSet 0 1 [7; 8]) [[[1; 2]; [3; 4]]; []]).
  eapply vhistory_step.
  - change [[[1; 2]; [3; 4]]; []] with (if failed VOk then [[[1; 2]]; []] else after (VPush 0 [3; 4] 2) [[[1; 2]]; []]).
    eapply vhistory_step.
    + change [[[1; 2]]; []] with (if failed VOk then (repeat [] 2 : contents) else after (VPush 0 [1; 2] 1) (repeat [] 2)).
      eapply vhistory_step; [apply vhistory_init| | |reflexivity]; cbn; intuition lia.
    + cbn; intuition lia.
    + cbn; lia.
    + reflexivity.
  - cbn; intuition lia.
  - right; exact Logic.I.
  - reflexivity.
Qed.

(** C109. Full statement: a call that cannot get memory reports it and leaves every vector as it was. False without
    exceptions, which is the default: the vector uses the null pointer. *)
Theorem C109_failure_reported_refuted :
  vrun (pool64 2 10) false 1 [VPush 0 [1] 1; VPush 1 [2] 1; VPush 0 [3] 2] (world_init (pool64 2 10) 2) = UB.
Proof. reflexivity. Qed.
Print Assumptions C109_failure_reported_refuted.
(** Exactly: with exceptions a call fails if it asks for more than max_size(), or needs a block while as many vectors hold
    blocks as there are blocks; without exceptions the second is undefined behaviour. A failed call changes nothing. *)
Theorem C109_failures_exactly : forall L exc tsz k cs w o, wf_layout L -> vhistory L exc tsz k cs w ->
  vlegal (l_bs L) tsz cs o -> too_long (l_bs L) cs o \/ vfits (l_stride L) tsz o ->
  (too_long (l_bs L) cs o -> vstep L exc tsz o w = Ret (VLengthError, w)) /\
  (~ too_long (l_bs L) cs o -> needs_block o w -> users w = l_num L ->
     vstep L exc tsz o w = if exc then Ret (refusal o, w) else UB) /\
  (~ too_long (l_bs L) cs o -> ~ (needs_block o w /\ users w = l_num L) ->
     exists r w', vstep L exc tsz o w = Ret (r, w') /\ failed r = false /\ vhistory L exc tsz k (after o cs) w').
Proof.
  intros L exc tsz k cs w o W H G T. pose proof (vhistory_inv L exc tsz k cs w W H) as I.
  destruct (vstep_spec L exc tsz cs w o W I G T) as [A [B C]]. split; [exact A|]. split; [exact B|].
  intros X Y. pose proof (users_le _ _ _ _ I) as U.
  destruct (C X) as [w' [E I']].
  { intros N. destruct (Nat.eq_dec (users w) (l_num L)); [exfalso; auto|lia]. }
  set (r := match o with VGet v i => VElem (nth i (the v cs) []) | _ => VOk end) in *.
  assert (F : failed r = false) by (subst r; destruct o; reflexivity).
  exists r, w'. split; [exact E|]. split; [exact F|].
  pose proof (vhistory_step L exc tsz k cs w o r w' H G T E) as S. rewrite F in S. exact S.
Qed.
Print Assumptions C109_failures_exactly.
Theorem C109_never_more_users_than_blocks : forall L exc tsz k cs w, wf_layout L -> vhistory L exc tsz k cs w ->
  (users w <= l_num L)%nat.
Proof. intros L exc tsz k cs w W H. exact (users_le _ _ _ _ (vhistory_inv L exc tsz k cs w W H)). Qed.
Print Assumptions C109_never_more_users_than_blocks.
Example C109_case :
  match vrun (pool64 2 10) true 1 [VPush 0 [1] 1; VPush 1 [2] 1; VPush 0 [3] 2; VDestroy 1; VPush 0 [3] 2; VGet 0 1]
          (world_init (pool64 2 10) 2) with
  | Ret (rs, _) => rs = [VOk; VOk; VBadAlloc; VOk; VOk; VElem [3]]
  | UB => False
  end.
Proof. reflexivity. Qed.

(** C110: the suite's vector tests, for every growth policy. Every call succeeds, the characters read are those of "hello"
    and the terminating null, and the vector's block is returned. *)
Theorem C110_test_vector : forall L exc grow, wf_layout L -> (2 <= l_num L)%nat -> 6 <= l_bs L ->
  (forall s, Z.of_nat s < l_bs L -> (s < grow s)%nat /\ Z.of_nat (grow s) <= l_bs L) ->
  exists w, vrun L exc 1 (test_vector grow) (world_init L 1) =
    Ret (repeat VOk 6 ++ map (fun c => VElem [c]) [104; 104; 101; 108; 108; 111; 0] ++ [VOk], w) /\ users w = 0%nat.
Proof.
  intros L exc grow W Hn Hb Hg. destruct (wf_stride L W) as [S1 _]. apply (single_vector L exc 1 (removelast (test_vector grow)) W Hn).
  pose proof (Hg 0%nat ltac:(lia)). pose proof (Hg 1%nat ltac:(lia)). pose proof (Hg 2%nat ltac:(lia)).
  pose proof (Hg 3%nat ltac:(lia)). pose proof (Hg 4%nat ltac:(lia)). pose proof (Hg 5%nat ltac:(lia)).
  unfold test_vector. cbn [removelast plain vlegal vfits too_long after the nth replace_nth app length].
  repeat match goal with |- _ /\ _ => split end; try exact Logic.I; try reflexivity; try (intros X; exact X); lia.
Qed.
Print Assumptions C110_test_vector.
Theorem C110_test_emplace : forall L exc newcap, wf_layout L -> (2 <= l_num L)%nat -> 10 <= l_bs L ->
  (10 <= newcap)%nat -> Z.of_nat newcap <= l_bs L ->
  exists w, vrun L exc 1 (test_emplace newcap) (world_init L 1) = Ret ([VOk; VOk; VElem [49]; VOk], w) /\ users w = 0%nat.
Proof.
  intros L exc newcap W Hn Hb Hc1 Hc2. destruct (wf_stride L W) as [S1 _]. apply (single_vector L exc 1 (removelast (test_emplace newcap)) W Hn).
  unfold test_emplace. cbn [removelast plain vlegal vfits too_long after the nth replace_nth app length].
  repeat match goal with |- _ /\ _ => split end; try exact Logic.I; try reflexivity; try (intros X; exact X); lia.
Qed.
Print Assumptions C110_test_emplace.
(** TestVectorCapacity looks at capacity() twice. The standard only asks for a capacity of at least ten: the
    first comparison (with ten) succeeds exactly if the vector takes no more than it is asked for, then the second does too. *)
Theorem C110_test_capacity : forall L exc newcap hon, wf_layout L -> 10 <= l_bs L ->
  (10 <= newcap)%nat -> Z.of_nat newcap <= l_bs L ->
  exists w1 w2 c2, vrun L exc 1 (test_capacity_reserve newcap) (world_init L 1) = Ret ([VOk], w1) /\
    map vcap (wvecs w1) = [newcap] /\
    vrun L exc 1 (test_capacity_shrink hon) w1 = Ret ([VOk], w2) /\ map vcap (wvecs w2) = [c2] /\
    (c2 <= newcap)%nat.
Proof.
  intros L exc newcap hon W Hb Hc1 Hc2. pose proof (winv_init L 1 1 W) as I.
  destruct (vstep_spec L exc 1 (repeat [] 1) (world_init L 1) (VReserve 0 10 newcap) W I) as [_ [_ C]];
    [cbn; lia|right; cbn [vfits]; destruct (wf_stride L W); lia|].
  destruct (C) as [w1 [E1 I1]].
  { cbn; lia. }
  { intros _. destruct W as [Hn _]. cbn. exact Hn. }
  assert (V1 : exists p, wvecs w1 = [Vec p 0 newcap]).
  { cbn [vstep world_init wvecs repeat nth_error wpool] in E1. unfold max_size in E1.
    rewrite (proj2 (Z.ltb_ge _ _)) in E1 by lia. cbn [vcap vec_empty Nat.leb] in E1.
    unfold relocate in E1. destruct (ballocate L exc (Z.of_nat newcap) 0 (bpool_init L)) as [[[p| | |] s1]|]; try discriminate.
    cbn [bind] in E1. destruct (p =? 0); [discriminate|].
    cbn [concat put_bytes bind vsize vec_empty Nat.mul take_bytes vdata bdeallocate Z.eqb length Nat.add replace_nth] in E1.
    injection E1 as <-. exists p. reflexivity. }
  destruct V1 as [p V1].
  destruct (vstep_spec L exc 1 (repeat [] 1) w1 (VShrink 0 hon) W I1) as [_ [_ D]]; [cbn; lia|right; exact Logic.I|].
  destruct (D (fun x => x)) as [w2 [E2 I2]].
  { intros [_ [x [Ex Hx]]]. rewrite V1 in Ex. cbn in Ex. injection Ex as <-. cbn in Hx. lia. }
  assert (V2 : exists c2, map vcap (wvecs w2) = [c2] /\ (c2 <= newcap)%nat).
  { cbn [vstep] in E2. rewrite V1 in E2. cbn [nth_error vcap vsize] in E2.
    destruct (negb hon || (newcap =? 0)%nat).
    - injection E2 as <-. exists newcap. rewrite V1. split; [reflexivity|lia].
    - destruct (bdeallocate L (vdata (Vec p 0 newcap)) (wpool w1)) as [s'|]; [|discriminate].
      cbn in E2. injection E2 as <-. exists 0%nat. split; [reflexivity|lia]. }
  destruct V2 as [c2 [V2 Hc]]. exists w1, w2, c2.
  split; [cbn [test_capacity_reserve vrun]; rewrite E1; reflexivity|]. split; [rewrite V1; reflexivity|].
  split; [cbn [test_capacity_shrink vrun]; rewrite E2; reflexivity|]. split; [exact V2|exact Hc].
Qed.
Print Assumptions C110_test_capacity.
(** The policy of libstdc++: double, but stay within max_size(). *)
Definition doubling (bs : nat) (s : nat) : nat := Nat.min bs (s + Nat.max s 1).
Example C110_case : forall s, Z.of_nat s < l_bs (pool64 2 10) ->
  (s < doubling 10 s)%nat /\ Z.of_nat (doubling 10 s) <= l_bs (pool64 2 10).
Proof. intros s H. change (l_bs (pool64 2 10)) with 10 in *. unfold doubling. lia. Qed.

(** C111. Full statement: the suite's std::unordered_map test passes with the pool it is instantiated with (16 blocks of 72
    bytes), whatever numbers of buckets the map chooses. False: if the map starts with 13 buckets (as libstdc++ does since
    GCC 10), clearing the 104 bytes of bucket pointers overwrites the link of the next free block, and the third insertion
    finds no block although 13 are free. *)
Definition node64 (key value : Z) : list Z := encode 8 0 ++ encode 4 key ++ encode 4 value.
Definition three_inserts (exc : bool) (nb : nat) : outcome (option umap * bpool) :=
  let L := pool64 16 72 in
  let* (r1, s1) := umap_insert L exc (node64 1 2) (Some nb) (Umap 0 []) (bpool_init L) in
  let* (r2, s2) := umap_insert L exc (node64 2 4) None (match r1 with Some m => m | None => Umap 0 [] end) s1 in
  umap_insert L exc (node64 3 8) None (match r2 with Some m => m | None => Umap 0 [] end) s2.
Theorem C111_map_test_refuted :
  (exists s, three_inserts true 13 = Ret (None, s)) /\ three_inserts false 13 = UB.
Proof.
  split; [|vm_compute; reflexivity].
  assert (C : match three_inserts true 13 with Ret (None, _) => True | _ => False end) by (vm_compute; exact Logic.I).
  destruct (three_inserts true 13) as [[[m|] s]|]; try contradiction. eauto.
Qed.
Print Assumptions C111_map_test_refuted.
(** Exactly which numbers of buckets are harmful in the test. *)
Theorem C111_map_test_exactly : forall nb, (0 < nb <= 72)%nat ->
  ((exists m s, three_inserts true nb = Ret (Some m, s)) <-> (nb <= 10)%nat).
Proof.
  intros nb H.
  assert (C : forallb (fun n => Bool.eqb (match three_inserts true n with Ret (Some _, _) => true | _ => false end) (n <=? 10)%nat)
                (seq 1 72) = true) by (vm_compute; reflexivity).
  rewrite forallb_forall in C. specialize (C nb). rewrite in_seq in C. specialize (C ltac:(lia)). apply eqb_prop in C.
  destruct (Nat.leb_spec nb 10); split; intros X; try lia.
  - destruct (three_inserts true nb) as [[[m|] s]|]; try discriminate. eauto.
  - destruct X as [m [s X]]. rewrite X in C. discriminate.
Qed.
Print Assumptions C111_map_test_exactly.
(** In general: if the arrays of bucket pointers fit in a block, an insertion succeeds exactly if there are blocks for it,
    and the nodes keep their bytes. *)
Theorem C111_map_partial : forall L exc nodes m s node rehash, wf_layout L -> mhistory L exc nodes m s ->
  Z.of_nat (length node) <= l_bs L ->
  match rehash with Some nb => (0 < nb)%nat /\ Z.of_nat (nb * l_ps L) <= l_bs L | None => True end ->
  let need := match rehash with Some _ => 2%nat | None => 1%nat end in
  ((occupied m + need <= l_num L)%nat ->
     exists m' s', umap_insert L exc node rehash m s = Ret (Some m', s') /\ mhistory L exc (nodes ++ [node]) m' s' /\
       occupied m' = (length nodes + 1 + match rehash with Some _ => 1 | None => if (ubuckets m =? 0)%Z then 0 else 1 end)%nat) /\
  ((l_num L < occupied m + need)%nat ->
     if exc then exists s', umap_insert L exc node rehash m s = Ret (None, s') /\ mhistory L exc nodes m s'
     else umap_insert L exc node rehash m s = UB).
Proof.
  intros L exc nodes m s node rehash W H Hn Hr need.
  destruct (umap_insert_spec L exc nodes m s node rehash W (mhistory_inv L exc nodes m s W H) Hn Hr) as [A B]. split.
  - intros X. destruct (A X) as [m' [s' [E [_ Ho]]]]. exists m', s'. split; [exact E|]. split; [|exact Ho].
    exact (mhistory_step L exc nodes m s node rehash (Some m') s' H Hn Hr E).
  - intros X. specialize (B X). destruct exc; [|exact B]. destruct B as [s' [E _]]. exists s'. split; [exact E|].
    exact (mhistory_step L true nodes m s node rehash None s' H Hn Hr E).
Qed.
Print Assumptions C111_map_partial.
Theorem C111_nodes_survive : forall L exc nodes m s i node, wf_layout L -> mhistory L exc nodes m s ->
  nth_error nodes i = Some node ->
  exists p, nth_error (unodes m) i = Some p /\ load (bmem s) p (length node) = node.
Proof.
  intros L exc nodes m s i node W H E. destruct (mhistory_inv L exc nodes m s W H) as [_ F]. clear H.
  revert i E. induction F as [|n p nodes' ps [_ D] F IH]; intros i E; [destruct i; discriminate|].
  destruct i as [|i]; cbn in *; [injection E as <-; exists p; auto|]. apply IH. exact E.
Qed.
Print Assumptions C111_nodes_survive.
Example C111_case : exists m s, mhistory (pool64 16 72) true [node64 1 2; node64 2 4] m s.
Proof.
  pose proof (proj1 pool64_wf) as W.
  destruct (proj1 (C111_map_partial _ true _ _ _ (node64 1 2) (Some 5%nat) W (mhistory_init _ _)
    ltac:(cbn; lia) ltac:(cbn; lia)) ltac:(cbn; lia)) as [m1 [s1 [_ [H1 O1]]]].
  destruct (proj1 (C111_map_partial _ true _ _ _ (node64 2 4) None W H1 ltac:(cbn; lia) Logic.I)
    ltac:(rewrite O1; cbn; lia)) as [m2 [s2 [_ [H2 _]]]].
  exists m2, s2. exact H2.
Qed.

(** C126. Full statement: an allocator that compiles hands out blocks in which an object of its type can live. The
    compiler checks the size only: here an object of 32 bytes aligned to 32 is to live at 4112. *)
Theorem C126_accepted_types_are_hosted_refuted : exists L tsz tal a s, wf_layout L /\ (l_al L | l_base L) /\ (tal | tsz) /\
  allocator_accepts (Some tsz) (l_bs L) = true /\ bstep L false (BAlloc tsz 0) (bpool_init L) = Ret (BPtr a, s) /\
  ~ hosts a (l_bs L) tsz tal.
Proof.
  exists (Layout 2 32 8 32 16 4112), 32, 32, 4112. eexists. split; [|split; [|split; [|split; [|split]]]].
  - unfold wf_layout. cbn. lia.
  - exists 257. reflexivity.
  - exists 1. reflexivity.
  - reflexivity.
  - unfold bstep, ballocate. change (32 <=? l_bs (Layout 2 32 8 32 16 4112)) with true. cbn [balloc_loop bpool_init bhead bmem].
    reflexivity.
  - intros [_ [k H]]. lia.
Qed.
Print Assumptions C126_accepted_types_are_hosted_refuted.
(** Exactly: it does iff the type's alignment divides the blocks', that of std::max_align_t and of pointers. *)
Theorem C126_exactly_partial : forall al tal tsz bs, 0 < al -> 0 < bs -> allocator_accepts (Some tsz) bs = true ->
  ((forall L exc tr s size k a s', wf_layout L -> l_al L = al -> l_bs L = bs -> (al | l_base L) -> bhistory L exc tr s ->
      bstep L exc (BAlloc size k) s = Ret (BPtr a, s') -> a <> 0 -> hosts a bs tsz tal) <-> (tal | al)).
Proof.
  intros al tal tsz bs A B H. apply Z.leb_le in H. split.
  - intros X. set (ps := Z.to_nat (al + bs)). set (L := Layout 1 bs ps 1 al al).
    assert (E : Z.of_nat ps = al + bs) by (unfold ps; lia).
    assert (W : wf_layout L).
    { unfold wf_layout, L. cbn [l_num l_bs l_ps l_al l_base]. split; [lia|]. split; [lia|]. split; [lia|]. split; [lia|]. split; [lia|].
      unfold l_end, l_stride, block_stride. cbn [l_num l_bs l_ps l_al l_base l_ma]. rewrite E.
      pose proof (Z.mul_div_le (Z.max bs (Z.max (al + bs) 1) + al - 1) al A).
      assert (P : 4 * (al + bs) <= 256 ^ (al + bs)).
      { assert (forall n, (0 < n)%nat -> 4 * Z.of_nat n <= 256 ^ Z.of_nat n) as Q.
        { induction n as [|n IH]; [lia|]. intros _. destruct n as [|n]; [cbn; lia|].
          rewrite Nat2Z.inj_succ, Z.pow_succ_r by lia. specialize (IH ltac:(lia)). lia. }
        specialize (Q ps ltac:(lia)). now rewrite E in Q. }
      lia. }
    pose proof (pinv_init L W) as I. change (blocks L) with [l_addr L 0] in I.
    destruct (alloc_some L false 0 0 _ _ _ _ W I ltac:(cbn; lia)) as (s' & AL & _).
    assert (AD : l_addr L 0 = al) by (unfold l_addr, block_address; cbn; lia).
    rewrite AD in AL. destruct (X L false [] _ 0 0%nat al s' W eq_refl eq_refl (Z.divide_refl al) (bhistory_init _ _) AL ltac:(lia)).
    assumption.
  - intros D L exc tr s size k a s' W EA EB BA HI ST N. split; [lia|].
    destruct (C107_blocks_in_use_are_apart L exc tr s size k a s' W HI ST N) as (_ & _ & _ & Q & _). rewrite EA in Q.
    eapply Z.divide_trans; eauto.
Qed.
Print Assumptions C126_exactly_partial.
(** The compiler accepts a type exactly if a block is large enough for one object of it, and void if blocks are not empty. *)
Theorem C126_accepted_iff : forall tsz bs,
  (allocator_accepts (Some tsz) bs = true <-> (forall a tal, Z.divide tal a -> hosts a bs tsz tal)) /\
  (allocator_accepts None bs = true <-> 0 < bs).
Proof.
  intros tsz bs. unfold allocator_accepts. rewrite !Z.leb_le. split; [|lia]. split.
  - intros H a tal D. split; auto.
  - intros H. apply (H 0 1). apply Z.divide_0_r.
Qed.
Print Assumptions C126_accepted_iff.
(** A type whose alignment is that of blocks, and one that is too large to be accepted. *)
Example C126_case : allocator_accepts (Some 24) 32 = true /\ allocator_accepts (Some 33) 32 = false /\
  allocator_accepts None 1 = true /\ (8 | l_al (pool64 3 32)) /\
  hosts 4112 32 24 8.
Proof. split; [reflexivity|]. split; [reflexivity|]. split; [reflexivity|]. split; [exists 2; reflexivity|]. split; [lia|]. exists 514. reflexivity. Qed.
