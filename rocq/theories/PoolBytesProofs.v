(** Proofs about the byte-level pool. *)
From Coq Require Import ZArith Bool List Lia Permutation Arith.
From Verif Require Import Outcome PoolModel PoolProofs PoolBytesModel PoolBytesSpec.
Import ListNotations.
Open Scope Z_scope.

(** Memory. *)
Lemma load_length : forall m a k, length (load m a k) = k.
Proof. intros. unfold load. now rewrite map_length, seq_length. Qed.

Lemma load_nth : forall m a k i d, (i < k)%nat -> nth i (load m a k) d = m (a + Z.of_nat i).
Proof.
  intros m a k i d H. unfold load. set (f := fun i => m (a + Z.of_nat i)).
  rewrite (nth_indep _ d (f 0%nat)) by (rewrite map_length, seq_length; exact H).
  rewrite map_nth, seq_nth by exact H. reflexivity.
Qed.

Lemma load_ext : forall m m' a k, (forall x, a <= x < a + Z.of_nat k -> m x = m' x) -> load m a k = load m' a k.
Proof.
  intros m m' a k H. unfold load. apply map_ext_in. intros i Hi. apply in_seq in Hi. apply H. lia.
Qed.

Lemma load_app : forall m a j k, load m a (j + k) = load m a j ++ load m (a + Z.of_nat j) k.
Proof.
  intros m a j k. unfold load. rewrite seq_app, map_app. f_equal. simpl (0 + j)%nat.
  replace j with (0 + j)%nat at 1 by lia. rewrite <- (Nat.add_0_r j) at 1.
  clear. assert (G : forall n s, map (fun i => m (a + Z.of_nat i)) (seq (j + s) n) = map (fun i => m (a + Z.of_nat j + Z.of_nat i)) (seq s n)).
  { induction n; intros s; [reflexivity|]. simpl. f_equal; [f_equal; lia|]. rewrite <- IHn. f_equal. f_equal. lia. }
  apply (G k 0%nat).
Qed.

Lemma store_in : forall m a l x, a <= x < a + Z.of_nat (length l) -> store m a l x = nth (Z.to_nat (x - a)) l 0.
Proof.
  intros m a l x H. unfold store. rewrite (proj2 (Z.leb_le a x)), (proj2 (Z.ltb_lt x _)) by lia. reflexivity.
Qed.
Lemma store_out : forall m a l x, x < a \/ a + Z.of_nat (length l) <= x -> store m a l x = m x.
Proof.
  intros m a l x H. unfold store. destruct (Z.leb_spec a x), (Z.ltb_spec x (a + Z.of_nat (length l))); try reflexivity. lia.
Qed.
Lemma load_store : forall m a l, load (store m a l) a (length l) = l.
Proof.
  intros m a l. apply nth_ext with (d := 0) (d' := 0); [apply load_length|].
  rewrite load_length. intros i H. rewrite load_nth by exact H. rewrite store_in by lia. f_equal. lia.
Qed.
Lemma load_store_k : forall m a l k, length l = k -> load (store m a l) a k = l.
Proof. intros m a l k <-. apply load_store. Qed.
Lemma load_store_out : forall m a l b k, b + Z.of_nat k <= a \/ a + Z.of_nat (length l) <= b ->
  load (store m a l) b k = load m b k.
Proof. intros m a l b k H. apply load_ext. intros x Hx. apply store_out. lia. Qed.

(** Pointers. *)
Lemma encode_length : forall k v, length (encode k v) = k.
Proof. induction k; intros; simpl; auto. Qed.
Lemma decode_encode : forall k v, 0 <= v < 256 ^ Z.of_nat k -> decode (encode k v) = v.
Proof.
  induction k as [|k IH]; intros v H.
  - simpl in *. lia.
  - cbn [encode decode]. rewrite IH.
    + pose proof (Z.div_mod v 256 ltac:(lia)). lia.
    + rewrite Nat2Z.inj_succ, Z.pow_succ_r in H by lia. split; [apply Z.div_pos; lia|].
      apply Z.div_lt_upper_bound; lia.
Qed.

(** Layout. *)
Lemma wf_stride : forall L, wf_layout L -> l_bs L <= l_stride L /\ Z.of_nat (l_ps L) <= l_stride L /\ 0 < l_stride L.
Proof.
  intros L [Hn [Hb [Hp [Ha _]]]].
  destruct (stride_props (l_bs L) (Z.of_nat (l_ps L)) (l_ma L) (l_al L) Hb Ha) as [H1 [H2 _]].
  unfold l_stride. lia.
Qed.

Definition blocks (L : layout) : list Z := map (l_addr L) (seq 0 (l_num L)).

Lemma in_blocks : forall L a, In a (blocks L) <-> exists i, (i < l_num L)%nat /\ a = l_addr L i.
Proof.
  intros L a. unfold blocks. rewrite in_map_iff. split.
  - intros [i [E H]]. apply in_seq in H. exists i. split; [lia|auto].
  - intros [i [H E]]. exists i. split; [auto|apply in_seq; lia].
Qed.

Lemma block_range : forall L a, wf_layout L -> In a (blocks L) ->
  l_base L <= a /\ a + l_stride L <= l_end L /\ is_block L a = true /\ a <> 0 /\ 0 <= a < 256 ^ Z.of_nat (l_ps L).
Proof.
  intros L a W H. destruct (wf_stride L W) as [S1 [S2 S3]]. destruct W as [_ [_ [_ [_ [B E]]]]].
  apply in_blocks in H. destruct H as [i [Hi ->]]. unfold l_addr, block_address.
  assert (l_base L + Z.of_nat i * l_stride L + l_stride L <= l_end L) by (unfold l_end; nia).
  assert (0 <= Z.of_nat i * l_stride L) by nia.
  split; [lia|]. split; [lia|]. split; [|lia].
  unfold is_block. rewrite (proj2 (Z.leb_le _ _)), (proj2 (Z.ltb_lt _ _)) by lia.
  replace (l_base L + Z.of_nat i * l_stride L - l_base L) with (Z.of_nat i * l_stride L) by lia.
  rewrite Z.mod_mul by lia. reflexivity.
Qed.

Lemma blocks_apart : forall L a b, wf_layout L -> In a (blocks L) -> In b (blocks L) -> a <> b ->
  a + l_stride L <= b \/ b + l_stride L <= a.
Proof.
  intros L a b W Ha Hb N. destruct (wf_stride L W) as [_ [_ S3]].
  apply in_blocks in Ha, Hb. destruct Ha as [i [_ ->]], Hb as [j [_ ->]]. unfold l_addr, block_address in *.
  assert (i <> j) by congruence. destruct (Nat.lt_ge_cases i j); [left|right]; nia.
Qed.

Lemma blocks_nodup : forall L, wf_layout L -> NoDup (blocks L).
Proof.
  intros L W. destruct (wf_stride L W) as [_ [_ S3]]. unfold blocks. apply FinFun.Injective_map_NoDup; [|apply seq_NoDup].
  intros i j E. unfold l_addr, block_address in E. nia.
Qed.

(** The free list. *)
Fixpoint bchain (L : layout) (m : bytes) (h : Z) (free : list Z) : Prop :=
  match free with
  | [] => h = 0
  | a :: t => h = a /\ In a (blocks L) /\ bchain L m (decode (load m a (l_ps L))) t
  end.

Lemma bchain_ext : forall L m m' free h, bchain L m h free ->
  (forall a, In a free -> load m' a (l_ps L) = load m a (l_ps L)) -> bchain L m' h free.
Proof.
  intros L m m' free. induction free as [|a t IH]; intros h H E; [exact H|].
  destruct H as [-> [Ha H]]. split; [reflexivity|]. split; [exact Ha|]. rewrite E by (left; reflexivity).
  apply IH; [exact H|]. intros b Hb. apply E. right; exact Hb.
Qed.

Definition pinv (L : layout) (s : bpool) (held free : list Z) : Prop :=
  Permutation (free ++ held) (blocks L) /\ bchain L (bmem s) (bhead s) free.

Lemma pinv_perm : forall L s held held' free, pinv L s held free -> Permutation held held' -> pinv L s held' free.
Proof.
  intros L s held held' free [P C] Q. split; [|exact C]. rewrite <- P. apply Permutation_app_head. now symmetry.
Qed.

Lemma pinv_nodup : forall L s held free, wf_layout L -> pinv L s held free -> NoDup (free ++ held).
Proof. intros L s held free W [P _]. apply (Permutation_NoDup (Permutation_sym P)). now apply blocks_nodup. Qed.

Lemma pinv_in : forall L s held free a, pinv L s held free -> In a free \/ In a held -> In a (blocks L).
Proof. intros L s held free a [P _] H. apply (Permutation_in _ P). apply in_or_app. exact H. Qed.

Lemma pinv_length : forall L s held free, pinv L s held free -> (length free + length held = l_num L)%nat.
Proof.
  intros L s held free [P _]. apply Permutation_length in P. unfold blocks in P.
  rewrite app_length, map_length, seq_length in P. exact P.
Qed.

Lemma balloc_loop_eq : forall L exc k s, balloc_loop L exc k s = balloc_loop L exc 0 s.
Proof.
  intros L exc k s. induction k as [|k IH]; [reflexivity|]. simpl. simpl in IH.
  destruct (bhead s =? 0); [reflexivity|]. destruct (get_next L (bmem s) (bhead s)); [exact IH|reflexivity].
Qed.

Lemma alloc_some : forall L exc size k s held a free, wf_layout L -> pinv L s held (a :: free) -> size <= l_bs L ->
  exists s', ballocate L exc size k s = Ret (BPtr a, s') /\ bmem s' = bmem s /\ pinv L s' (a :: held) free.
Proof.
  intros L exc size k s held a free W [P C] H. cbn [bchain] in C. destruct C as [Hh [Ha C]].
  destruct (block_range L a W Ha) as [_ [_ [B [Nz _]]]].
  unfold ballocate. rewrite (proj2 (Z.leb_le _ _)) by exact H. rewrite balloc_loop_eq. cbn [balloc_loop].
  rewrite Hh. rewrite (proj2 (Z.eqb_neq _ _)) by exact Nz. unfold get_next. rewrite B. cbn [bind].
  eexists. split; [reflexivity|]. split; [reflexivity|]. split; [|exact C].
  rewrite <- P. symmetry. apply (Permutation_middle free held a).
Qed.

Lemma alloc_refuse : forall L exc size k s held free, pinv L s held free -> l_bs L < size \/ free = [] ->
  ballocate L exc size k s = Ret (brefused exc, s).
Proof.
  intros L exc size k s held free [P C] H. unfold ballocate. destruct (Z.leb_spec size (l_bs L)); [|reflexivity].
  destruct H as [H | ->]; [lia|]. rewrite balloc_loop_eq. cbn [balloc_loop]. cbn [bchain] in C. rewrite C. reflexivity.
Qed.

Lemma perm_remove : forall (a : Z) l, NoDup l -> In a l -> Permutation l (a :: remove Z.eq_dec a l).
Proof.
  intros a l. induction l as [|b t IH]; intros N H; [destruct H|]. inversion N; subst. cbn [remove].
  destruct (Z.eq_dec a b) as [->|Hn].
  - rewrite notin_remove by assumption. reflexivity.
  - destruct H as [->|H]; [congruence|]. rewrite perm_swap. apply perm_skip. now apply IH.
Qed.

Lemma load_same_out : forall L (s : bpool) m' held free lo hi, wf_layout L -> pinv L s held free ->
  (forall x, x < lo \/ hi <= x -> m' x = bmem s x) ->
  (forall a, In a free -> a + Z.of_nat (l_ps L) <= lo \/ hi <= a) ->
  bchain L m' (bhead s) free.
Proof.
  intros L s m' held free lo hi W [P C] E D. eapply bchain_ext; [exact C|].
  intros a Ha. apply load_ext. intros x Hx. apply E. specialize (D a Ha). lia.
Qed.

Lemma nodup_app_parts : forall A (l1 l2 : list A), NoDup (l1 ++ l2) ->
  NoDup l1 /\ NoDup l2 /\ (forall x, In x l1 -> In x l2 -> False).
Proof.
  intros A l1 l2. induction l1 as [|a t IH]; intros N; [split; [constructor|split; [exact N|intros x []]]|].
  cbn in N. inversion N as [|? ? H1 H2]; subst. destruct (IH H2) as [N1 [N2 D]]. split.
  - constructor; [|exact N1]. intros H. apply H1. apply in_or_app. left; exact H.
  - split; [exact N2|]. intros x [->|Hx] H; [|exact (D x Hx H)]. apply H1. apply in_or_app. right; exact H.
Qed.

Lemma free_some : forall L s held free a, wf_layout L -> pinv L s held free -> In a held ->
  exists s', bdeallocate L a s = Ret s' /\
    (forall x, x < a \/ a + Z.of_nat (l_ps L) <= x -> bmem s' x = bmem s x) /\
    pinv L s' (remove Z.eq_dec a held) (a :: free).
Proof.
  intros L s held free a W I Ha. pose proof (pinv_in _ _ _ _ a I (or_intror Ha)) as Hb.
  destruct (block_range L a W Hb) as [R1 [R2 [B [Nz _]]]]. destruct (wf_stride L W) as [S1 [S2 S3]].
  pose proof (pinv_nodup _ _ _ _ W I) as N.
  unfold bdeallocate. rewrite (proj2 (Z.eqb_neq _ _)) by exact Nz. unfold set_next. rewrite B. cbn [bind].
  eexists. split; [reflexivity|]. cbn [bmem bhead]. split.
  { intros x Hx. apply store_out. rewrite encode_length. exact Hx. }
  destruct (nodup_app_parts _ _ _ N) as [_ [Nh Nd]].
  assert (Na : ~ In a free) by (intros F; exact (Nd a F Ha)).
  split.
  - destruct I as [P _]. rewrite <- P. cbn [app].
    rewrite (perm_remove a held Nh Ha) at 2. apply Permutation_middle.
  - cbn [bchain bhead bmem]. split; [reflexivity|]. split; [exact Hb|].
    rewrite load_store_k by apply encode_length.
    assert (Hd : 0 <= bhead s < 256 ^ Z.of_nat (l_ps L)).
    { destruct I as [_ C]. destruct free as [|b t]; cbn [bchain] in C.
      - rewrite C. split; [lia|]. apply Z.pow_pos_nonneg; lia.
      - destruct C as [-> [Hbb _]]. apply (block_range L b W Hbb). }
    rewrite decode_encode by exact Hd.
    destruct I as [P C]. eapply bchain_ext; [exact C|]. intros b Hin. apply load_store_out. rewrite encode_length.
    assert (In b (blocks L)) by (apply (Permutation_in _ P); apply in_or_app; left; exact Hin).
    assert (a <> b) by (intros ->; contradiction).
    destruct (blocks_apart L a b W Hb ltac:(assumption) ltac:(assumption)); lia.
Qed.

Lemma write_some : forall L s held free b a l, wf_layout L -> pinv L s held free -> In b held ->
  b <= a -> a + Z.of_nat (length l) <= b + l_stride L ->
  bwrite L a l s = Ret (BPool (store (bmem s) a l) (bhead s)) /\
  pinv L (BPool (store (bmem s) a l) (bhead s)) held free.
Proof.
  intros L s held free b a l W I Hb H1 H2. pose proof (pinv_in _ _ _ _ b I (or_intror Hb)) as Hbb.
  destruct (block_range L b W Hbb) as [R1 [R2 _]]. destruct (wf_stride L W) as [S1 [S2 S3]].
  unfold bwrite. rewrite (proj2 (Z.leb_le _ _)), (proj2 (Z.leb_le _ _)) by lia. split; [reflexivity|].
  destruct I as [P C]. split; [exact P|]. cbn [bmem bhead]. eapply bchain_ext; [exact C|].
  intros c Hc. apply load_store_out.
  assert (Hcb : In c (blocks L)) by (apply (Permutation_in _ P); apply in_or_app; left; exact Hc).
  assert (N : b <> c).
  { intros ->. pose proof (Permutation_NoDup (Permutation_sym P) (blocks_nodup L W)) as N.
    destruct (nodup_app_parts _ _ _ N) as [_ [_ Nd]]. exact (Nd c Hc Hb). }
  destruct (blocks_apart L b c W Hbb Hcb N); lia.
Qed.

Lemma read_some : forall L s held free b a k, wf_layout L -> pinv L s held free -> In b held ->
  b <= a -> a + Z.of_nat k <= b + l_stride L -> bread L a k s = Ret (load (bmem s) a k).
Proof.
  intros L s held free b a k W I Hb H1 H2. pose proof (pinv_in _ _ _ _ b I (or_intror Hb)) as Hbb.
  destruct (block_range L b W Hbb) as [R1 [R2 _]].
  unfold bread. rewrite (proj2 (Z.leb_le _ _)), (proj2 (Z.leb_le _ _)) by lia. reflexivity.
Qed.

(** The constructor. *)
Lemma binit_loop_out : forall L i next m x, wf_layout L -> l_addr L i <= x -> binit_loop L i next m x = m x.
Proof.
  intros L i. induction i as [|i IH]; intros next m x W H; [reflexivity|]. destruct (wf_stride L W) as [_ [S2 S3]].
  cbn [binit_loop].
  assert (l_addr L (S i) = l_addr L i + l_stride L) by (unfold l_addr, block_address; lia).
  rewrite IH by (auto; lia). apply store_out. rewrite encode_length. lia.
Qed.

Lemma binit_loop_chain : forall L i k m, wf_layout L -> (i + k <= l_num L)%nat ->
  bchain L m (l_addr L i) (map (l_addr L) (seq i k)) -> (0 < k)%nat ->
  bchain L (binit_loop L i (l_addr L i) m) (l_addr L 0) (map (l_addr L) (seq 0 (i + k))).
Proof.
  intros L i. induction i as [|i IH]; intros k m W H C K.
  - cbn [binit_loop]. exact C.
  - cbn [binit_loop]. replace (S i + k)%nat with (i + S k)%nat by lia. apply IH; [exact W|lia| |lia].
    destruct (wf_stride L W) as [_ [S2 S3]].
    assert (Hi : In (l_addr L i) (blocks L)) by (apply in_blocks; exists i; split; [lia|reflexivity]).
    cbn [seq map bchain]. split; [reflexivity|]. split; [exact Hi|].
    rewrite load_store_k by apply encode_length.
    rewrite decode_encode.
    + eapply bchain_ext; [exact C|]. intros a Ha. apply load_store_out. rewrite encode_length.
      apply in_map_iff in Ha. destruct Ha as [j [<- Hj]]. apply in_seq in Hj. unfold l_addr, block_address. right. nia.
    + assert (In (l_addr L (S i)) (blocks L)) by (apply in_blocks; exists (S i); split; [lia|reflexivity]).
      apply (block_range L _ W H0).
Qed.

Lemma pinv_init : forall L, wf_layout L -> pinv L (bpool_init L) [] (blocks L).
Proof.
  intros L W. split; [now rewrite app_nil_r|]. unfold bpool_init. cbn [bmem bhead].
  pose proof W as [Hn _].
  pose proof (binit_loop_chain L (l_num L - 1) 1
    (store (fun _ => 0) (l_addr L (l_num L - 1)) (encode (l_ps L) 0)) W ltac:(lia)) as H.
  replace (l_num L - 1 + 1)%nat with (l_num L) in H by lia. apply H; [|lia].
  cbn [seq map bchain]. split; [reflexivity|].
  split; [apply in_blocks; exists (l_num L - 1)%nat; split; [lia|reflexivity]|].
  rewrite load_store_k by apply encode_length. apply decode_encode.
  split; [lia|]. apply Z.pow_pos_nonneg; lia.
Qed.

(** Histories. *)
Fixpoint bfree (L : layout) (tr : btrace) : list Z :=
  match tr with
  | [] => blocks L
  | (BAlloc _ _, BPtr a) :: t => if a =? 0 then bfree L t else tl (bfree L t)
  | (BFree a, _) :: t => if a =? 0 then bfree L t else a :: bfree L t
  | _ :: t => bfree L t
  end.

Definition binv (L : layout) (tr : btrace) (s : bpool) : Prop :=
  pinv L s (addresses tr) (bfree L tr) /\
  (forall b x v, In b (addresses tr) -> b <= x < b + l_bs L -> written_byte (l_bs L) tr x = Some v -> bmem s x = v).

Lemma remove_zero : forall L s held free, wf_layout L -> pinv L s held free -> remove Z.eq_dec 0 held = held.
Proof.
  intros L s held free W I. apply notin_remove. intros H.
  destruct (block_range L 0 W (pinv_in _ _ _ _ 0 I (or_intror H))) as [_ [_ [_ [N _]]]]. lia.
Qed.

Lemma held_apart : forall L s held free a b, wf_layout L -> pinv L s held free -> In a held -> In b held -> a <> b ->
  a + l_stride L <= b \/ b + l_stride L <= a.
Proof.
  intros L s held free a b W I Ha Hb N.
  exact (blocks_apart L a b W (pinv_in _ _ _ _ a I (or_intror Ha)) (pinv_in _ _ _ _ b I (or_intror Hb)) N).
Qed.

Lemma bstep_safe : forall L exc tr s o, wf_layout L -> binv L tr s -> blegal L tr o ->
  exists r s', bstep L exc o s = Ret (r, s') /\ binv L ((o, r) :: tr) s' /\
    match o with
    | BAlloc size _ => r = if size <=? l_bs L then match bfree L tr with a :: _ => BPtr a | [] => brefused exc end else brefused exc
    | BRead a k => r = BBytes (load (bmem s) a k)
    | _ => r = BNone
    end.
Proof.
  intros L exc tr s o W [I D] G. destruct (wf_stride L W) as [S1 [S2 S3]].
  pose proof (pinv_nodup _ _ _ _ W I) as N.
  destruct o as [size k|a|a l|a k]; cbn [bstep blegal] in *.
  - (* allocate *)
    assert (R : forall s', s' = s -> binv L ((BAlloc size k, brefused exc) :: tr) s').
    { intros s' ->. split.
      - destruct exc; cbn; exact I.
      - intros b x v Hb Hx Hw. destruct exc; cbn in Hb, Hw.
        + eapply D; eassumption.
        + eapply D; eassumption. }
    destruct (Z.leb_spec size (l_bs L)) as [Hs|Hs].
    + destruct (bfree L tr) as [|a free] eqn:F.
      * rewrite (alloc_refuse L exc size k s _ _ I) by (right; reflexivity).
        exists (brefused exc), s. split; [reflexivity|]. split; [|reflexivity]. apply R. reflexivity.
      * destruct (alloc_some L exc size k s _ a free W I Hs) as [s' [E [Em I']]]. rewrite E.
        exists (BPtr a), s'. split; [reflexivity|]. split; [|reflexivity].
        destruct (block_range L a W (pinv_in _ _ _ _ a I (or_introl (or_introl eq_refl)))) as [_ [_ [_ [Nz _]]]].
        split; cbn [addresses bfree written_byte].
        -- rewrite (proj2 (Z.eqb_neq a 0) Nz), F. exact I'.
        -- rewrite (proj2 (Z.eqb_neq a 0) Nz). intros b x v Hb Hx Hw. rewrite Em.
           destruct Hb as [<-|Hb].
           ++ exfalso. revert Hw. cbn [negb andb]. rewrite (proj2 (Z.leb_le _ _)), (proj2 (Z.ltb_lt _ _)) by lia. discriminate.
           ++ cbn [negb andb] in Hw. destruct ((a <=? x) && (x <? a + l_bs L)); [discriminate|]. eapply D; eassumption.
    + rewrite (alloc_refuse L exc size k s _ _ I) by (left; exact Hs).
      exists (brefused exc), s. split; [reflexivity|]. split; [|reflexivity]. apply R. reflexivity.
  - (* deallocate *)
    destruct (Z.eq_dec a 0) as [->|Nz].
    + exists BNone, s. split; [reflexivity|]. split; [|reflexivity].
      split; cbn [addresses bfree written_byte]; rewrite (remove_zero L s _ _ W I); [exact I|exact D].
    + destruct G as [G|G]; [contradiction|].
      destruct (free_some L s _ _ a W I G) as [s' [E [Em I']]]. rewrite E. cbn [bind].
      exists BNone, s'. split; [reflexivity|]. split; [|reflexivity].
      split; cbn [addresses bfree written_byte].
      * rewrite (proj2 (Z.eqb_neq a 0) Nz). exact I'.
      * intros b x v Hb Hx Hw. apply in_remove in Hb. destruct Hb as [Hb Nb]. rewrite Em; [eapply D; eassumption|].
        destruct (held_apart L s _ _ a b W I G Hb ltac:(congruence)); lia.
  - (* write *)
    destruct G as [b [Hb [G1 G2]]]. destruct (write_some L s _ _ b a l W I Hb G1 ltac:(lia)) as [E I'].
    rewrite E. cbn [bind]. eexists BNone, _. split; [reflexivity|]. split; [|reflexivity].
    split; cbn [addresses bfree written_byte bmem]; [exact I'|].
    intros c x v Hc Hx Hw. unfold store.
    destruct ((a <=? x) && (x <? a + Z.of_nat (length l))); [congruence|]. eapply D; eassumption.
  - (* read *)
    destruct G as [b [Hb [G1 G2]]]. rewrite (read_some L s _ _ b a k W I Hb G1) by lia. cbn [bind].
    eexists _, s. split; [reflexivity|]. split; [|reflexivity]. split; [exact I|exact D].
Qed.

Lemma bhistory_inv : forall L exc tr s, wf_layout L -> bhistory L exc tr s -> binv L tr s.
Proof.
  intros L exc tr s W H. induction H as [|tr s o r s' H IH G E].
  - split; [apply pinv_init; exact W|]. intros b x v [].
  - destruct (bstep_safe L exc tr s o W IH G) as [r' [s'' [E' [I _]]]]. rewrite E in E'. injection E' as <- <-. exact I.
Qed.
