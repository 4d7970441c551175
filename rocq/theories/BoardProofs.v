(** Proofs about the configuration of the evaluation board. *)
From Coq Require Import ZArith Bool List String Lia.
From Verif Require Import Outcome TargetModel TargetSpec TargetProofs BoardModel BoardSpec.
Import ListNotations.
Open Scope list_scope.
Open Scope Z_scope.

(** ** Bits *)

Lemma land_field_bits : forall v low width, 0 <= low -> 0 <= width ->
  Z.shiftr (Z.land v (Z.shiftl (Z.ones width) low)) low = bits v low width.
Proof.
  intros v low width Hl Hw. unfold bits.
  rewrite <- Z.shiftr_div_pow2, <- Z.land_ones by lia.
  rewrite Z.shiftr_land, Z.shiftr_shiftl_l by lia. rewrite Z.sub_diag, Z.shiftl_0_r. reflexivity.
Qed.

Lemma get_scs : forall v, get SCS_MASK SCS_SHIFT v = bits v 24 4.
Proof. intro v. apply (land_field_bits v 24 4); lia. Qed.
Lemma get_divcore : forall v, get DIVCORE_MASK DIVCORE_SHIFT v = bits v 16 4.
Proof. intro v. apply (land_field_bits v 16 4); lia. Qed.
Lemma get_sirc : forall v, get 0x1 0 v = bits v 0 1.
Proof. intro v. apply (land_field_bits v 0 1); lia. Qed.
Lemma get_firc : forall v, get 0x3 0 v = bits v 0 2.
Proof. intro v. apply (land_field_bits v 0 2); lia. Qed.
Lemma get_prediv : forall v, get 0x700 8 v = bits v 8 3.
Proof. intro v. apply (land_field_bits v 8 3); lia. Qed.
Lemma get_mult : forall v, get 0x1F0000 16 v = bits v 16 5.
Proof. intro v. apply (land_field_bits v 16 5); lia. Qed.

Lemma bits_range : forall v low width, 0 <= width -> 0 <= bits v low width < 2 ^ width.
Proof. intros. unfold bits. apply Z.mod_pos_bound. apply Z.pow_pos_nonneg; lia. Qed.

Lemma has_bit : forall v k, 0 <= k -> has (2 ^ k) v = Z.testbit v k.
Proof.
  intros v k Hk. unfold has. destruct (Z.testbit v k) eqn:E.
  - destruct (Z.eqb_spec (Z.land v (2 ^ k)) 0) as [H | H]; [| reflexivity].
    assert (Z.testbit (Z.land v (2 ^ k)) k = true) as H1.
    { rewrite Z.land_spec, E, Z.pow2_bits_true by lia. reflexivity. }
    rewrite H, Z.bits_0 in H1. discriminate.
  - destruct (Z.eqb_spec (Z.land v (2 ^ k)) 0) as [H | H]; [reflexivity |].
    exfalso. apply H. apply Z.bits_inj'. intros b Hb. rewrite Z.land_spec, Z.bits_0.
    destruct (Z.eq_dec b k) as [-> | N]; [rewrite E; reflexivity |].
    rewrite Z.pow2_bits_false by lia. apply andb_false_r.
Qed.
Lemma has_lk : forall v, has LK_MASK v = Z.testbit v 23.
Proof. intro v. apply (has_bit v 23); lia. Qed.
Lemma has_vld : forall v, has VLD_MASK v = Z.testbit v 24.
Proof. intro v. apply (has_bit v 24); lia. Qed.

Lemma answer_range : forall c h r, 0 <= answer c h r < 2 ^ 32.
Proof. intros. apply Z.mod_pos_bound. lia. Qed.

(** ** The core clock *)

Lemma add32_small : forall a b, 0 <= a + b < 2 ^ 32 -> add32 a b = a + b.
Proof. intros. apply Z.mod_small. assumption. Qed.
Lemma mul32_small : forall a b, 0 <= a * b < 2 ^ 32 -> mul32 a b = a * b.
Proof. intros. apply Z.mod_small. assumption. Qed.

Lemma firc_nth : forall k, 0 <= k < 4 -> nth_error firc_freq (Z.to_nat k) = Some (48000000 + 4000000 * k).
Proof.
  intros k H. assert (k = 0 \/ k = 1 \/ k = 2 \/ k = 3) as [-> | [-> | [-> | ->]]] by lia; reflexivity.
Qed.

(** The frequency computed from the registers' values: DIVCORE of the first read, the source of the second. *)
Definition computed (v0 v1 sirc firc pa pb old : Z) : Z :=
  let d := bits v0 16 4 + 1 in
  let s := bits v1 24 4 in
  if s =? 1 then 8000000 / d
  else if s =? 2 then (if bits sirc 0 1 =? 0 then 2000000 else 8000000) / d
  else if s =? 3 then (48000000 + 4000000 * bits firc 0 2) / d
  else if s =? 6 then 8000000 * (bits pb 16 5 + 16) / (2 * (bits pa 8 3 + 1)) / d
  else old.

Lemma update_computed : forall c h old,
  let h1 := h ++ [Rd CSR (answer c h CSR)] in
  let h2 := h1 ++ [Rd CSR (answer c h1 CSR)] in
  let h3 := h2 ++ [Rd SPLLCFG (answer c h2 SPLLCFG)] in
  exists h', SystemCoreClockUpdate c h old =
    Ret (computed (answer c h CSR) (answer c h1 CSR) (answer c h2 SIRCCFG) (answer c h2 FIRCCFG) (answer c h2 SPLLCFG)
                  (answer c h3 SPLLCFG) old, h').
Proof.
  intros c h old h1 h2 h3. unfold SystemCoreClockUpdate, computed. fold h1 h2 h3.
  rewrite get_divcore, get_scs.
  pose proof (bits_range (answer c h CSR) 16 4 ltac:(lia)) as B.
  rewrite (add32_small (bits (answer c h CSR) 16 4) 1) by lia.
  assert ((bits (answer c h CSR) 16 4 + 1 =? 0) = false) as Z0 by (apply Z.eqb_neq; lia). rewrite Z0.
  destruct (bits (answer c h1 CSR) 24 4 =? 1); [eexists; reflexivity |].
  destruct (bits (answer c h1 CSR) 24 4 =? 2).
  { rewrite get_sirc. eexists. unfold SIRC_HIGH, SIRC_LOW.
    destruct (bits (answer c h2 SIRCCFG) 0 1 =? 0); reflexivity. }
  destruct (bits (answer c h1 CSR) 24 4 =? 3).
  { rewrite get_firc. pose proof (bits_range (answer c h2 FIRCCFG) 0 2 ltac:(lia)) as Bf.
    rewrite firc_nth by lia. eexists. reflexivity. }
  destruct (bits (answer c h1 CSR) 24 4 =? 6); [| eexists; reflexivity].
  rewrite get_prediv, get_mult.
  pose proof (bits_range (answer c h2 SPLLCFG) 8 3 ltac:(lia)) as Ba.
  pose proof (bits_range (answer c h3 SPLLCFG) 16 5 ltac:(lia)) as Bb.
  change (2 ^ 3) with 8 in Ba. change (2 ^ 5) with 32 in Bb.
  rewrite (add32_small _ 1) by lia. rewrite (add32_small _ 16) by lia.
  rewrite (mul32_small _ 2) by lia. unfold XTAL_HZ. rewrite (mul32_small 8000000) by lia.
  assert (((bits (answer c h2 SPLLCFG) 8 3 + 1) * 2 =? 0) = false) as Z1 by (apply Z.eqb_neq; lia). rewrite Z1.
  rewrite (Z.mul_comm _ 2). eexists. reflexivity.
Qed.

Lemma div_bounds : forall num d, 0 < d -> num / d * d <= num < (num / d + 1) * d.
Proof. intros. pose proof (Z.div_mod num d). pose proof (Z.mod_pos_bound num d). nia. Qed.

Lemma core_clock_when_read : forall c regs h old, when_read c h regs ->
  exists f h', SystemCoreClockUpdate c h old = Ret (f, h') /\
    (core_hz regs f \/ ((forall num den, ~ source regs num den) /\ f = old)).
Proof.
  intros c regs h old (R0 & R1 & R2 & R3 & R4 & R5). destruct (update_computed c h old) as [h' E]. cbv zeta in *. rewrite E.
  eexists _, h'. split; [reflexivity |]. unfold computed. rewrite <- R0, <- R1, <- R2, <- R3, <- R4, <- R5.
  pose proof (bits_range (regs CSR) 16 4 ltac:(lia)) as Bd.
  pose proof (bits_range (regs SPLLCFG) 8 3 ltac:(lia)) as Bp.
  destruct (Z.eqb_spec (bits (regs CSR) 24 4) 1) as [E1 | E1].
  { left. exists 8000000, 1. split; [constructor; assumption |]. cbv zeta. rewrite Z.mul_1_l. apply div_bounds. lia. }
  destruct (Z.eqb_spec (bits (regs CSR) 24 4) 2) as [E2 | E2].
  { left. pose proof (bits_range (regs SIRCCFG) 0 1 ltac:(lia)) as Bs. change (2 ^ 1) with 2 in Bs.
    destruct (Z.eqb_spec (bits (regs SIRCCFG) 0 1) 0) as [E3 | E3].
    - exists 2000000, 1. split; [constructor; assumption |]. cbv zeta. rewrite Z.mul_1_l. apply div_bounds. lia.
    - exists 8000000, 1. split; [apply src_slow_high; [assumption | lia] |]. cbv zeta. rewrite Z.mul_1_l. apply div_bounds. lia. }
  destruct (Z.eqb_spec (bits (regs CSR) 24 4) 3) as [E3 | E3].
  { left. eexists _, 1. split; [apply src_fast; assumption |]. cbv zeta. rewrite Z.mul_1_l. apply div_bounds. lia. }
  destruct (Z.eqb_spec (bits (regs CSR) 24 4) 6) as [E6 | E6].
  { left. eexists _, _. split; [apply src_pll; assumption |]. cbv zeta.
    rewrite Z.div_div by lia. apply div_bounds. apply Z.mul_pos_pos; lia. }
  right. split; [| reflexivity]. intros num den Hs. inversion Hs; congruence.
Qed.

Lemma core_clock_exact : forall c regs h old, steady c regs ->
  exists f h', SystemCoreClockUpdate c h old = Ret (f, h') /\
    (core_hz regs f \/ ((forall num den, ~ source regs num den) /\ f = old)).
Proof.
  intros c regs h old St. apply core_clock_when_read. unfold when_read. cbv zeta. rewrite !St. repeat split.
Qed.

(** Two fields of two words, put into one. *)
Lemma two_fields : forall u v a m b n, 0 <= a -> 0 <= m -> a + m <= b -> 0 <= n ->
  exists w, bits w a m = bits u a m /\ bits w b n = bits v b n.
Proof.
  intros u v a m b n Ha Hm Hb Hn. exists (bits u a m * 2 ^ a + bits v b n * 2 ^ b).
  pose proof (bits_range u a m Hm) as Bu. pose proof (bits_range v b n Hn) as Bv.
  assert (0 < 2 ^ a) by (apply Z.pow_pos_nonneg; lia). assert (0 < 2 ^ b) by (apply Z.pow_pos_nonneg; lia).
  assert (2 ^ b = 2 ^ (b - a - m) * 2 ^ m * 2 ^ a) as E.
  { rewrite <- !Z.pow_add_r by lia. f_equal. lia. }
  assert (0 < 2 ^ (b - a - m)) by (apply Z.pow_pos_nonneg; lia).
  assert (0 < 2 ^ m) by (apply Z.pow_pos_nonneg; lia).
  split.
  - unfold bits at 1. rewrite E.
    replace (bits u a m * 2 ^ a + bits v b n * (2 ^ (b - a - m) * 2 ^ m * 2 ^ a))
      with ((bits u a m + bits v b n * 2 ^ (b - a - m) * 2 ^ m) * 2 ^ a) by ring.
    rewrite Z.div_mul by lia. rewrite Z.mod_add by lia. apply Z.mod_small. exact Bu.
  - unfold bits at 1. rewrite Z.div_add by lia.
    rewrite (Z.div_small (bits u a m * 2 ^ a)).
    + rewrite Z.add_0_l. apply Z.mod_small. exact Bv.
    + split; [apply Z.mul_nonneg_nonneg; lia |]. rewrite E.
      apply Z.mul_lt_mono_pos_r; [assumption |]. apply Z.lt_le_trans with (2 ^ m); [lia |].
      rewrite <- (Z.mul_1_l (2 ^ m)) at 1. apply Z.mul_le_mono_nonneg_r; lia.
Qed.

Lemma when_read_some : forall c h, exists regs, when_read c h regs.
Proof.
  intros c h. unfold when_read.
  set (h1 := h ++ [Rd CSR (answer c h CSR)]). set (h2 := h1 ++ [Rd CSR (answer c h1 CSR)]).
  set (h3 := h2 ++ [Rd SPLLCFG (answer c h2 SPLLCFG)]). cbv zeta.
  destruct (two_fields (answer c h CSR) (answer c h1 CSR) 16 4 24 4) as (w & W0 & W1); try lia.
  destruct (two_fields (answer c h2 SPLLCFG) (answer c h3 SPLLCFG) 8 3 16 5) as (p & P0 & P1); try lia.
  exists (fun r => match r with CSR => w | SPLLCFG => p | r => answer c h2 r end). repeat split; assumption.
Qed.

Lemma core_hz_unique : forall regs f g, core_hz regs f -> core_hz regs g -> f = g.
Proof.
  intros regs f g (n1 & d1 & S1 & B1) (n2 & d2 & S2 & B2). cbv zeta in B1, B2.
  pose proof (bits_range (regs CSR) 16 4 ltac:(lia)) as Bd.
  pose proof (bits_range (regs SPLLCFG) 8 3 ltac:(lia)) as Bp.
  assert (n1 = n2 /\ d1 = d2) as [-> ->].
  { inversion S1; inversion S2; subst; try (split; congruence); exfalso; congruence. }
  assert (0 < d2) by (inversion S2; lia).
  assert (0 < d2 * (bits (regs CSR) 16 4 + 1)) by (apply Z.mul_pos_pos; lia). nia.
Qed.

Lemma core_clock_defined : forall c h old, exists f h', SystemCoreClockUpdate c h old = Ret (f, h').
Proof. intros. destruct (update_computed c h old) as [h' E]. eauto. Qed.

(** ** Histories *)

Lemma last_write_app : forall r a b old, last_write r (a ++ b) old = last_write r b (last_write r a old).
Proof. induction a as [| [q v | q v] t IH]; intros; cbn [app last_write]; auto. Qed.

Lemma written_rd : forall r h q v, written r (h ++ [Rd q v]) = written r h.
Proof. intros. unfold written. rewrite last_write_app. reflexivity. Qed.
Lemma written_wr : forall r h v, written r (h ++ [Wr r v]) = Some v.
Proof. intros. unfold written. rewrite last_write_app. cbn. destruct (reg_eq_dec r r); congruence. Qed.
Lemma written_wr_other : forall r q h v, q <> r -> written r (h ++ [Wr q v]) = written r h.
Proof. intros. unfold written. rewrite last_write_app. cbn. destruct (reg_eq_dec q r); congruence. Qed.

Lemma snoc_split : forall (A : Type) (h : list A) x a y b, h ++ [x] = a ++ y :: b ->
  (b = [] /\ a = h /\ y = x) \/ (exists b', b = b' ++ [x] /\ h = a ++ y :: b').
Proof.
  intros A h x a y b E. destruct (exists_last (l := y :: b)) as [b0 [z Ez]]; [discriminate |].
  rewrite Ez, app_assoc in E. apply app_inj_tail in E. destruct E as [E1 ->].
  destruct b0 as [| y' b'].
  - cbn in Ez. injection Ez as -> ->. left. rewrite app_nil_r in E1. auto.
  - cbn in Ez. injection Ez as -> ->. right. exists b'. auto.
Qed.

Lemma reported_rd : forall r b x h v, Z.testbit v b = x -> reported r b x (h ++ [Rd r v]).
Proof. intros. exists h, v, []. split; [reflexivity |]. split; [assumption |]. intros w []. Qed.

Lemma reported_keep_rd : forall r b x h q v, reported r b x h -> reported r b x (h ++ [Rd q v]).
Proof.
  intros r b x h q v (h1 & w & h2 & -> & Hb & Hn). exists h1, w, (h2 ++ [Rd q v]).
  rewrite <- app_assoc. split; [reflexivity |]. split; [assumption |].
  intros w' Hi. apply in_app_or in Hi. destruct Hi as [Hi | [Hi | []]]; [eapply Hn; eauto | discriminate].
Qed.

Lemma reported_keep_wr : forall r b x h q v, q <> r -> reported r b x h -> reported r b x (h ++ [Wr q v]).
Proof.
  intros r b x h q v Hq (h1 & w & h2 & -> & Hb & Hn). exists h1, w, (h2 ++ [Wr q v]).
  rewrite <- app_assoc. split; [reflexivity |]. split; [assumption |].
  intros w' Hi. apply in_app_or in Hi. destruct Hi as [Hi | [Hi | []]]; [eapply Hn; eauto | congruence].
Qed.

Lemma orderly_nil : orderly [].
Proof. intros a r v b E. destruct a; discriminate. Qed.
Lemma orderly_rd : forall h q v, orderly h -> orderly (h ++ [Rd q v]).
Proof.
  intros h q v O a r w b E. apply snoc_split in E. destruct E as [(_ & _ & E) | (b' & _ & E)]; [discriminate | eapply O; eauto].
Qed.
Lemma orderly_wr : forall h r v, allowed r v h -> orderly h -> orderly (h ++ [Wr r v]).
Proof.
  intros h r v A O a q w b E. apply snoc_split in E. destruct E as [(_ & -> & E) | (b' & _ & E)].
  - injection E as -> ->. assumption.
  - eapply O; eauto.
Qed.

(** Everything is said about the accesses [a] made after an arbitrary history [h0]. *)
Definition post (h0 : list access) (p : progress) (Q : list access -> Prop) : Prop :=
  exists a, history p = h0 ++ a /\ orderly a /\ (forall h, p = Done h -> Q a).

Lemma post_then : forall h0 p k Q R, post h0 p Q ->
  (forall a, orderly a -> Q a -> post h0 (k (h0 ++ a)) R) -> post h0 (and_then p k) R.
Proof.
  intros h0 p k Q R (a & Ha & Oa & Qa) K. destruct p as [h | h]; cbn [history and_then] in *.
  - exists a. split; [assumption |]. split; [assumption |]. intros h' E. discriminate.
  - subst h. apply K; [assumption |]. apply (Qa (h0 ++ a)). reflexivity.
Qed.

Lemma post_write : forall h0 a r v (Q : list access -> Prop), orderly a -> allowed r v a -> Q (a ++ [Wr r v]) ->
  post h0 (write r v (h0 ++ a)) Q.
Proof.
  intros h0 a r v Q O A HQ. exists (a ++ [Wr r v]). cbn. rewrite app_assoc.
  split; [reflexivity |]. split; [apply orderly_wr; assumption |]. intros _ _. exact HQ.
Qed.

Lemma post_update : forall h0 c a r f (Q : list access -> Prop), orderly a ->
  (forall v, allowed r (f v) (a ++ [Rd r v])) -> (forall v, 0 <= v < 2 ^ 32 -> Q ((a ++ [Rd r v]) ++ [Wr r (f v)])) ->
  post h0 (update c r f (h0 ++ a)) Q.
Proof.
  intros h0 c a r f Q O A HQ. set (v := answer c (h0 ++ a) r).
  exists ((a ++ [Rd r v]) ++ [Wr r (f v)]). unfold update. cbn [history]. fold v.
  split; [rewrite <- !app_assoc; reflexivity |].
  split; [apply orderly_wr; [apply A | apply orderly_rd; assumption] |]. intros _ _. apply HQ. apply answer_range.
Qed.

(** What survives a number of reads. *)
Definition stable (Q : list access -> Prop) : Prop := forall a r v, Q a -> Q (a ++ [Rd r v]).

Lemma post_poll : forall n h0 c r busy a (Q : list access -> Prop), stable Q -> orderly a -> Q a ->
  post h0 (poll_while n c r busy (h0 ++ a)) (fun a' => Q a' /\ exists b v, a' = b ++ [Rd r v] /\ busy v = false).
Proof.
  induction n as [| n IH]; intros h0 c r busy a Q St O HQ; cbn [poll_while].
  - exists a. split; [reflexivity |]. split; [assumption |]. intros h E. discriminate.
  - set (v := answer c (h0 ++ a) r). rewrite <- app_assoc. destruct (busy v) eqn:E.
    + apply IH; [assumption | apply orderly_rd; assumption | apply St; assumption].
    + exists (a ++ [Rd r v]). split; [reflexivity |]. split; [apply orderly_rd; assumption |].
      intros _ _. split; [apply St; assumption |]. exists a, v. auto.
Qed.

Lemma stable_reported : forall r b x, stable (reported r b x).
Proof. intros r b x a q v. apply reported_keep_rd. Qed.
Lemma stable_written : forall r v, stable (fun a => written r a = v).
Proof. intros r v a q w E. rewrite written_rd. exact E. Qed.
Lemma stable_written_bit : forall r b x, stable (fun a => exists w, written r a = Some w /\ Z.testbit w b = x).
Proof. intros r b x a q v E. rewrite written_rd. exact E. Qed.
Lemma stable_and : forall P Q, stable P -> stable Q -> stable (fun a => P a /\ Q a).
Proof. intros P Q SP SQ a r v [HP HQ]. split; [apply SP | apply SQ]; assumption. Qed.
Lemma stable_true : stable (fun _ => True).
Proof. intros a r v H. exact H. Qed.

(** ** Bring-up *)

Definition all_written (l : list (reg * Z)) (a : list access) : Prop := Forall (fun p => written (fst p) a = Some (snd p)) l.

Lemma stable_all_written : forall l, stable (all_written l).
Proof. intros l a r v H. unfold all_written in *. rewrite Forall_forall in *. intros p Hp. rewrite written_rd. auto. Qed.

Lemma all_written_wr : forall l a r v, ~ In r (map fst l) -> all_written l a -> all_written ((r, v) :: l) (a ++ [Wr r v]).
Proof.
  intros l a r v N H. constructor; [apply written_wr |]. unfold all_written in H. rewrite Forall_forall in *.
  intros p Hp. rewrite written_wr_other; [auto |]. intros ->. apply N. apply in_map. exact Hp.
Qed.

Lemma all_written_keep : forall l a r v, ~ In r (map fst l) -> all_written l a -> all_written l (a ++ [Wr r v]).
Proof. intros l a r v N H. eapply Forall_inv_tail. apply (all_written_wr l a r v N H). Qed.


Definition osc_facts (a : list access) : Prop := reported SOSCCSR 24 true a.

Lemma stable_osc : stable osc_facts.
Proof. apply stable_reported. Qed.

Lemma osc_keep : forall a r v, r <> SOSCCSR -> osc_facts a -> osc_facts (a ++ [Wr r v]).
Proof. intros. apply reported_keep_wr; assumption. Qed.

Definition L0 : list (reg * Z) := [(WDOG_CS, 0x2100); (WDOG_TOVAL, 0xFFFF); (WDOG_CNT, 0xD928C520)].
Definition L1 : list (reg * Z) := (SOSCCSR, 1) :: (SOSCCFG, 0x24) :: (SOSCDIV, 0x101) :: L0.
Definition L2 : list (reg * Z) := (SPLLCFG, 0x180000) :: L1.
Definition L3 : list (reg * Z) := (RCCR, 0x6010012) :: (SIRCDIV, 0x101) :: L2.
Definition L4 : list (reg * Z) := (CTRL, 0xC0000) :: (BAUD, 0x16000003) :: L3.

Ltac notin := unfold L4, L3, L2, L1, L0; cbn [map fst In]; intuition discriminate.

Lemma post_wdog : forall h0 a, orderly a -> post h0 (WDOG_disable (h0 ++ a)) (all_written L0).
Proof.
  intros h0 a O. unfold WDOG_disable.
  eapply post_then; [apply post_write with (Q := all_written [(WDOG_CNT, 0xD928C520)]); [assumption | exact Logic.I |] |].
  { apply (all_written_wr [] a); [notin | constructor]. }
  intros a1 O1 Q1.
  eapply post_then; [apply post_write with (Q := all_written [(WDOG_TOVAL, 0xFFFF); (WDOG_CNT, 0xD928C520)]);
                     [assumption | exact Logic.I |] |].
  { apply all_written_wr; [notin | assumption]. }
  intros a2 O2 Q2. apply post_write; [assumption | exact Logic.I |]. apply all_written_wr; [notin | assumption].
Qed.

Lemma post_weaken : forall h0 p (Q R : list access -> Prop), post h0 p Q -> (forall a, Q a -> R a) -> post h0 p R.
Proof. intros h0 p Q R (a & H1 & H2 & H3) W. exists a. eauto. Qed.

Lemma last_read : forall b r v k x, Z.testbit v k = x -> reported r k x (b ++ [Rd r v]).
Proof. intros. apply reported_rd. assumption. Qed.

Lemma post_sosc : forall n c h0 a, orderly a -> all_written L0 a ->
  post h0 (SOSC_init_8MHz n c (h0 ++ a)) (fun a => all_written L1 a /\ osc_facts a).
Proof.
  intros n c h0 a O W. unfold SOSC_init_8MHz.
  change (Z.lor (field 0x7 0 1) (field 0x700 8 1)) with 0x101. change (Z.lor (field 0x30 4 2) 0x4) with 0x24.
  eapply post_then; [apply post_write with (Q := all_written ((SOSCDIV, 0x101) :: L0)); [assumption | exact Logic.I |] |].
  { apply all_written_wr; [notin | assumption]. }
  intros a1 O1 Q1.
  eapply post_then; [apply post_write with (Q := all_written ((SOSCCFG, 0x24) :: (SOSCDIV, 0x101) :: L0));
                     [assumption | exact Logic.I |] |].
  { apply all_written_wr; [notin | assumption]. }
  intros a2 O2 Q2.
  eapply post_then; [apply (post_poll n h0 c _ _ a2 _ (stable_all_written _) O2 Q2) |].
  intros a3 O3 (Q3 & b & v & E & B).
  eapply post_then; [apply post_write with (Q := all_written L1); [assumption | |] |].
  { cbn [allowed]. rewrite E. apply last_read. rewrite has_lk in B. exact B. }
  { apply all_written_wr; [notin | assumption]. }
  intros a4 O4 Q4.
  eapply post_weaken; [apply (post_poll n h0 c _ _ a4 _ (stable_all_written _) O4 Q4) |].
  intros a5 (Q5 & b5 & v5 & E5 & B5). split; [assumption |]. unfold osc_facts. rewrite E5. apply last_read.
  rewrite has_vld in B5. apply negb_false_iff in B5. exact B5.
Qed.

Definition pll_bit (x : bool) (a : list access) : Prop := exists w, written SPLLCSR a = Some w /\ Z.testbit w 0 = x.
Definition pll_facts (a : list access) : Prop := reported SPLLCSR 24 true a /\ pll_bit true a.

Lemma testbit_land_compl1 : forall v, Z.testbit (Z.land v (compl 0x1)) 0 = false.
Proof. intro v. rewrite Z.land_spec. change (Z.testbit (compl 1) 0) with false. apply andb_false_r. Qed.
Lemma testbit_lor1 : forall v, Z.testbit (Z.lor v 0x1) 0 = true.
Proof. intro v. rewrite Z.lor_spec. change (Z.testbit 1 0) with true. apply orb_true_r. Qed.

Lemma post_spll : forall n c h0 a, orderly a -> all_written L1 a -> osc_facts a ->
  post h0 (SPLL_init_160MHz n c (h0 ++ a)) (fun a => all_written L2 a /\ osc_facts a /\ pll_facts a).
Proof.
  intros n c h0 a O W F. unfold SPLL_init_160MHz.
  assert (stable (fun a => all_written L1 a /\ osc_facts a)) as S1 by (apply stable_and; [apply stable_all_written | apply stable_osc]).
  eapply post_then; [apply (post_poll n h0 c _ _ a _ S1 O (conj W F)) |].
  intros a1 O1 ((W1 & F1) & b & v & E & B). rewrite has_lk in B.
  eapply post_then; [apply post_update with (Q := fun a => (all_written L1 a /\ osc_facts a) /\ pll_bit false a); [assumption | |] |].
  { intro w. cbn [allowed]. apply reported_keep_rd. rewrite E. apply last_read. exact B. }
  { intros w _. split; [split |].
    - apply all_written_keep; [notin |]. apply stable_all_written. exact W1.
    - apply osc_keep; [discriminate |]. apply stable_osc. exact F1.
    - eexists. split; [apply written_wr | apply testbit_land_compl1]. }
  intros a2 O2 ((W2 & F2) & P2).
  eapply post_then; [apply post_update with (Q := fun a => (all_written L1 a /\ osc_facts a) /\ pll_bit false a);
                     [assumption | intro w; exact Logic.I |] |].
  { intros w _. split; [split |].
    - apply all_written_keep; [notin |]. apply stable_all_written. exact W2.
    - apply osc_keep; [discriminate |]. apply stable_osc. exact F2.
    - unfold pll_bit. rewrite written_wr_other, written_rd by discriminate. exact P2. }
  intros a3 O3 ((W3 & F3) & P3).
  change (field 0x1F0000 16 24) with 0x180000.
  eapply post_then; [apply post_write with (Q := fun a => all_written L2 a /\ osc_facts a); [assumption | |] |].
  { split; [exact F3 | exact P3]. }
  { split; [apply all_written_wr; [notin | exact W3] | apply osc_keep; [discriminate | exact F3]]. }
  intros a4 O4 (W4 & F4).
  assert (stable (fun a => all_written L2 a /\ osc_facts a)) as S2 by (apply stable_and; [apply stable_all_written | apply stable_osc]).
  eapply post_then; [apply (post_poll n h0 c _ _ a4 _ S2 O4 (conj W4 F4)) |].
  intros a5 O5 ((W5 & F5) & b5 & v5 & E5 & B5). rewrite has_lk in B5.
  eapply post_then; [apply post_update with (Q := fun a => (all_written L2 a /\ osc_facts a) /\ pll_bit true a); [assumption | |] |].
  { intro w. cbn [allowed]. apply reported_keep_rd. rewrite E5. apply last_read. exact B5. }
  { intros w _. split; [split |].
    - apply all_written_keep; [notin |]. apply stable_all_written. exact W5.
    - apply osc_keep; [discriminate |]. apply stable_osc. exact F5.
    - eexists. split; [apply written_wr | apply testbit_lor1]. }
  intros a6 O6 Q6.
  assert (stable (fun a => (all_written L2 a /\ osc_facts a) /\ pll_bit true a)) as S3
    by (apply stable_and; [exact S2 | apply stable_written_bit]).
  eapply post_weaken; [apply (post_poll n h0 c _ _ a6 _ S3 O6 Q6) |].
  intros a7 (((W7 & F7) & P7) & b7 & v7 & E7 & B7). split; [exact W7 |]. split; [exact F7 |]. split; [| exact P7].
  rewrite E7. apply last_read. rewrite has_vld in B7. apply negb_false_iff in B7. exact B7.
Qed.

(** CSR was read last and showed source 6. *)
Definition selected (a : list access) : Prop := exists b v, a = b ++ [Rd CSR v] /\ bits v 24 4 = 6.

Lemma post_run : forall n c h0 a, orderly a -> all_written L2 a -> osc_facts a -> pll_facts a ->
  post h0 (NormalRUNmode_80MHz n c (h0 ++ a)) (fun a => (all_written L3 a /\ pll_bit true a) /\ selected a).
Proof.
  intros n c h0 a O W F (P1 & P2). unfold NormalRUNmode_80MHz.
  change (Z.lor (field 0x7 0 1) (field 0x700 8 1)) with 0x101.
  change (Z.lor (Z.lor (Z.lor (field SCS_MASK SCS_SHIFT 6) (field DIVCORE_MASK DIVCORE_SHIFT 1)) (field 0xF0 4 1)) (field 0xF 0 2))
    with 0x6010012.
  eapply post_then; [apply post_write with (Q := fun a => all_written ((SIRCDIV, 0x101) :: L2) a /\ osc_facts a /\ pll_facts a);
                     [assumption | exact Logic.I |] |].
  { split; [apply all_written_wr; [notin | assumption] |]. split; [apply osc_keep; [discriminate | assumption] |].
    split; [apply reported_keep_wr; [discriminate | assumption] |].
    unfold pll_bit. rewrite written_wr_other by discriminate. exact P2. }
  intros a1 O1 (W1 & F1 & P3 & P4).
  eapply post_then; [apply post_write with (Q := fun a => all_written L3 a /\ pll_bit true a); [assumption | |] |].
  { split; [exact F1 |]. split; [exact P3 | exact P4]. }
  { split; [apply all_written_wr; [notin | assumption] |].
    unfold pll_bit. rewrite written_wr_other by discriminate. exact P4. }
  intros a2 O2 Q2.
  assert (stable (fun a => all_written L3 a /\ pll_bit true a)) as S1
    by (apply stable_and; [apply stable_all_written | apply stable_written_bit]).
  eapply post_weaken; [apply (post_poll n h0 c _ _ a2 _ S1 O2 Q2) |].
  intros a3 (Q3 & b & v & E & B). split; [exact Q3 |]. exists b, v. split; [exact E |].
  rewrite get_scs in B. apply negb_false_iff in B. apply Z.eqb_eq in B. exact B.
Qed.

Lemma post_port : forall c h0 a, orderly a -> all_written L3 a -> pll_bit true a ->
  post h0 (PORT_init c (h0 ++ a)) (fun a => all_written L3 a /\ pll_bit true a).
Proof.
  intros c h0 a O W P. unfold PORT_init.
  assert (forall r v (a : list access) w, ~ In r (map fst L3) -> r <> SPLLCSR -> all_written L3 a /\ pll_bit true a ->
            all_written L3 ((a ++ [Rd r v]) ++ [Wr r w]) /\ pll_bit true ((a ++ [Rd r v]) ++ [Wr r w])) as K.
  { intros r v a0 w N1 N2 (W0 & P0). split.
    - apply all_written_keep; [assumption |]. apply stable_all_written. exact W0.
    - unfold pll_bit. rewrite written_wr_other, written_rd by assumption. exact P0. }
  eapply post_then; [apply post_update with (Q := fun a => all_written L3 a /\ pll_bit true a); [assumption | intro; exact Logic.I |] |].
  { intros v _. apply K; [notin | discriminate | auto]. }
  intros a1 O1 Q1.
  eapply post_then; [apply post_update with (Q := fun a => all_written L3 a /\ pll_bit true a); [assumption | intro; exact Logic.I |] |].
  { intros v _. apply K; [notin | discriminate | auto]. }
  intros a2 O2 Q2. apply post_update; [assumption | intro; exact Logic.I |].
  intros v _. apply K; [notin | discriminate | auto].
Qed.

Lemma post_uart : forall c h0 a, orderly a -> all_written L3 a -> pll_bit true a ->
  post h0 (LPUART1_init c (h0 ++ a)) (fun a => all_written L4 a /\ pll_bit true a).
Proof.
  intros c h0 a O W P. unfold LPUART1_init.
  assert (forall r v (a : list access) w, ~ In r (map fst L3) -> r <> SPLLCSR -> all_written L3 a /\ pll_bit true a ->
            all_written L3 ((a ++ [Rd r v]) ++ [Wr r w]) /\ pll_bit true ((a ++ [Rd r v]) ++ [Wr r w])) as K.
  { intros r v a0 w N1 N2 (W0 & P0). split.
    - apply all_written_keep; [assumption |]. apply stable_all_written. exact W0.
    - unfold pll_bit. rewrite written_wr_other, written_rd by assumption. exact P0. }
  change (Z.lor (field 0x1FFF 0 3) (field 0x1F000000 24 22)) with 0x16000003. change (Z.lor 0x40000 0x80000) with 0xC0000.
  eapply post_then; [apply post_update with (Q := fun a => all_written L3 a /\ pll_bit true a); [assumption | intro; exact Logic.I |] |].
  { intros v _. apply K; [notin | discriminate | auto]. }
  intros a1 O1 Q1.
  eapply post_then; [apply post_update with (Q := fun a => all_written L3 a /\ pll_bit true a); [assumption | intro; exact Logic.I |] |].
  { intros v _. apply K; [notin | discriminate | auto]. }
  intros a2 O2 (W2 & P2).
  eapply post_then; [apply post_write with (Q := fun a => all_written ((BAUD, 0x16000003) :: L3) a /\ pll_bit true a);
                     [assumption | exact Logic.I |] |].
  { split; [apply all_written_wr; [notin | assumption] |]. unfold pll_bit. rewrite written_wr_other by discriminate. exact P2. }
  intros a3 O3 (W3 & P3). apply post_write; [assumption | exact Logic.I |].
  split; [apply all_written_wr; [notin | assumption] |]. unfold pll_bit. rewrite written_wr_other by discriminate. exact P3.
Qed.

Lemma post_bring_up : forall n c h0, post h0 (bring_up n c h0) (fun a => all_written L4 a /\ pll_bit true a).
Proof.
  intros n c h0. replace (bring_up n c h0) with (bring_up n c (h0 ++ [])) by (rewrite app_nil_r; reflexivity). unfold bring_up.
  eapply post_then; [apply post_wdog; apply orderly_nil |]. intros a1 O1 W1.
  eapply post_then; [apply post_sosc; assumption |]. intros a2 O2 (W2 & F2).
  eapply post_then; [apply post_spll; assumption |]. intros a3 O3 (W3 & F3 & P3).
  eapply post_then; [apply post_run; assumption |]. intros a4 O4 ((W4 & P4) & _).
  eapply post_then; [apply post_port; assumption |]. intros a5 O5 (W5 & P5).
  apply post_uart; assumption.
Qed.

Lemma bring_up_orderly : forall n c h0, exists a, history (bring_up n c h0) = h0 ++ a /\ orderly a.
Proof. intros. destruct (post_bring_up n c h0) as (a & H & O & _). eauto. Qed.

Lemma last_write_some : forall r h old v, last_write r h None = Some v -> last_write r h old = Some v.
Proof.
  intros r h. induction h as [| [q w | q w] t IH]; intros old v E; cbn [last_write] in *; [discriminate | auto |].
  destruct (reg_eq_dec q r); [assumption | auto].
Qed.

Lemma written_app : forall r h a v, written r a = Some v -> written r (h ++ a) = Some v.
Proof. intros. unfold written. rewrite last_write_app. apply last_write_some. assumption. Qed.

Lemma bring_up_written : forall n c h0 h', bring_up n c h0 = Done h' ->
  (forall r v, In (r, v) L4 -> written r h' = Some v) /\ pll_bit true h'.
Proof.
  intros n c h0 h' E. destruct (post_bring_up n c h0) as (a & H & _ & Q). rewrite E in H. cbn in H. subst h'.
  destruct (Q (h0 ++ a) E) as (W & w & P1 & P2). split.
  - intros r v Hi. apply written_app. unfold all_written in W. rewrite Forall_forall in W. apply (W (r, v) Hi).
  - exists w. split; [apply written_app; assumption | assumption].
Qed.

(** ** The bring-up ends *)

Lemma poll_soon : forall n c r busy h, soon n c r h (fun v => busy v = false) -> exists h', poll_while n c r busy h = Done h'.
Proof.
  induction n as [| n IH]; intros c r busy h (k & Hk & B); [lia |]. cbn [poll_while].
  destruct (busy (answer c h r)) eqn:E; [| eauto].
  destruct k as [| k]; [cbn [reads] in B; congruence |]. cbn [reads] in B. apply IH. exists k. split; [lia | assumption].
Qed.

Lemma soon_weaken : forall n c r h (P Q : Z -> Prop), (forall v, P v -> Q v) -> soon n c r h P -> soon n c r h Q.
Proof. intros n c r h P Q W (k & Hk & HP). exists k. auto. Qed.

Lemma sosc_ends : forall n c h, lively n c -> exists h', SOSC_init_8MHz n c h = Done h'.
Proof.
  intros n c h L. unfold SOSC_init_8MHz. cbn [and_then write].
  edestruct poll_soon as [h1 E1]; [| rewrite E1; cbn [and_then]].
  { eapply soon_weaken; [| apply (lv_osc_unlocked n c L)]. intros v B. cbn beta in *. rewrite has_lk. exact B. }
  apply poll_soon. eapply soon_weaken; [| apply (lv_osc_valid n c L _ 1)].
  - intros v B. cbn beta in *. rewrite has_vld, B. reflexivity.
  - apply written_wr.
  - reflexivity.
Qed.

Lemma spll_ends : forall n c h, lively n c -> exists h', SPLL_init_160MHz n c h = Done h'.
Proof.
  intros n c h L. unfold SPLL_init_160MHz.
  assert (forall h, exists h', poll_while n c SPLLCSR (has LK_MASK) h = Done h') as P.
  { intro h0. apply poll_soon. eapply soon_weaken; [| apply (lv_pll_unlocked n c L)].
    intros v B. cbn beta in *. rewrite has_lk. exact B. }
  destruct (P h) as [h1 ->]. cbn [and_then]. unfold update at 1. cbn [and_then]. unfold update at 1. cbn [and_then write].
  edestruct P as [h2 ->]. cbn [and_then]. unfold update. cbn [and_then].
  apply poll_soon. eapply soon_weaken; [| eapply (lv_pll_valid n c L)].
  - intros v B. cbn beta in *. rewrite has_vld, B. reflexivity.
  - change ([?x; ?y]) with ([x] ++ [y]). rewrite app_assoc. apply written_wr.
  - apply testbit_lor1.
Qed.

Lemma run_ends : forall n c h, lively n c -> exists h', NormalRUNmode_80MHz n c h = Done h'.
Proof.
  intros n c h L. unfold NormalRUNmode_80MHz. cbn [and_then write].
  apply poll_soon. eapply soon_weaken; [| eapply (lv_selected n c L); apply written_wr].
  intros v B. cbn beta in *. rewrite get_scs, B. reflexivity.
Qed.

Lemma bring_up_ends : forall n c h, lively n c -> exists h', bring_up n c h = Done h'.
Proof.
  intros n c h L. unfold bring_up, WDOG_disable. cbn [and_then write].
  match goal with |- context [SOSC_init_8MHz n c ?x] => destruct (sosc_ends n c x L) as [h1 ->] end. cbn [and_then].
  destruct (spll_ends n c h1 L) as [h2 ->]. cbn [and_then].
  destruct (run_ends n c h2 L) as [h3 ->]. cbn [and_then].
  unfold PORT_init, update. cbn [and_then]. unfold LPUART1_init, update. cbn [and_then write]. eexists. reflexivity.
Qed.

(** If a loop's condition never comes, the bring-up does not return. *)
Lemma poll_never : forall n c r busy h, (forall h, busy (answer c h r) = true) -> exists h', poll_while n c r busy h = Waiting h'.
Proof. induction n as [| n IH]; intros; cbn [poll_while]; [eauto |]. rewrite H. auto. Qed.

(** ** The frequency afterwards *)

Lemma runs_at_80MHz : forall n c h0 h' old, bring_up n c h0 = Done h' -> shows_clock c ->
  exists h2, SystemCoreClockUpdate c h' old = Ret (80000000, h2).
Proof.
  intros n c h0 h' old E (S1 & S2). destruct (bring_up_written n c h0 h' E) as (W & _).
  assert (written RCCR h' = Some 0x6010012) as WR by (apply W; cbn; tauto).
  assert (written SPLLCFG h' = Some 0x180000) as WP by (apply W; cbn; tauto).
  destruct (update_computed c h' old) as [h2 U]. exists h2. rewrite U. f_equal. f_equal.
  rewrite (S1 h' _ WR). rewrite (S1 (h' ++ _) 0x6010012) by (rewrite written_rd; exact WR).
  rewrite !(S2 _ 0x180000) by (rewrite !written_rd; exact WP). reflexivity.
Qed.

(** ** The reset *)

Lemma compl_ffff0000 : compl 0xFFFF0000 = Z.ones 16.
Proof. reflexivity. Qed.

Lemma software_reset : forall c h, exists v w, SystemSoftwareReset c h = h ++ [Rd AIRCR v; Wr AIRCR w] /\
  bits w 16 16 = 0x05FA /\ Z.testbit w 2 = true /\ (forall b, 0 <= b < 16 -> b <> 2 -> Z.testbit w b = Z.testbit v b) /\
  0 <= w < 2 ^ 32.
Proof.
  intros c h. unfold SystemSoftwareReset. set (v := answer c h AIRCR).
  change (field 0xFFFF0000 16 0x05FA) with 0x05FA0000. change (field 0x4 2 1) with 4. rewrite compl_ffff0000.
  eexists v, _. split; [reflexivity |].
  assert (forall b, 0 <= b -> Z.testbit (Z.lor (Z.lor (Z.land v (Z.ones 16)) 0x05FA0000) 4) b =
            ((Z.testbit v b && (b <? 16)) || Z.testbit 0x05FA0000 b || (b =? 2))%bool) as T.
  { intros b Hb. rewrite !Z.lor_spec, Z.land_spec, Z.testbit_ones_nonneg by lia.
    f_equal. destruct (Z.eqb_spec b 2) as [-> | N]; [reflexivity |]. apply (Z.pow2_bits_false 2). lia. }
  split; [| split; [| split]].
  - unfold bits. rewrite <- Z.shiftr_div_pow2, <- Z.land_ones by lia.
    rewrite !Z.shiftr_lor, Z.shiftr_land, !Z.land_lor_distr_l.
    change (Z.shiftr (Z.ones 16) 16) with 0. change (Z.shiftr 4 16) with 0. rewrite Z.land_0_r. reflexivity.
  - rewrite T by lia. rewrite orb_true_r. reflexivity.
  - intros b Hb N. rewrite T by lia. destruct (Z.eqb_spec b 2); [contradiction |].
    destruct (Z.ltb_spec b 16); [| lia].
    assert (Z.testbit 0x05FA0000 b = false) as ->; [| rewrite andb_true_r, !orb_false_r; reflexivity].
    change 0x05FA0000 with (Z.shiftl 0x05FA 16). apply Z.shiftl_spec_low. lia.
  - set (w := Z.lor (Z.lor (Z.land v (Z.ones 16)) 0x05FA0000) 4) in *.
    assert (0 <= v < 2 ^ 32) by apply answer_range.
    assert (0 <= w) by (unfold w; rewrite !Z.lor_nonneg, Z.land_nonneg; lia). split; [assumption |].
    assert (w = w mod 2 ^ 32) as Ew.
    { rewrite <- Z.land_ones by lia. apply Z.bits_inj'. intros b Hb. rewrite Z.land_spec, Z.testbit_ones_nonneg by lia.
      destruct (Z.ltb_spec b 32) as [| Hge]; [rewrite andb_true_r; reflexivity |]. rewrite andb_false_r, T by lia.
      destruct (Z.ltb_spec b 16); [lia |]. rewrite andb_false_r. destruct (Z.eqb_spec b 2); [lia |].
      rewrite !orb_false_r. cbn [orb]. apply Z.bits_above_log2; [lia |]. change (Z.log2 0x05FA0000) with 26. lia. }
    rewrite Ew. apply Z.mod_pos_bound. lia.
Qed.

(** ** Pins and port *)

Lemma bits_lor : forall a b low width, 0 <= low -> 0 <= width -> bits (Z.lor a b) low width = Z.lor (bits a low width) (bits b low width).
Proof.
  intros. unfold bits. rewrite <- !Z.shiftr_div_pow2, <- !Z.land_ones by lia.
  rewrite Z.shiftr_lor, Z.land_lor_distr_l. reflexivity.
Qed.

Lemma lor2_is_2 : forall x, 0 <= x < 8 -> (Z.lor x 2 = 2 <-> x = 0 \/ x = 2).
Proof.
  intros x H. assert (x = 0 \/ x = 1 \/ x = 2 \/ x = 3 \/ x = 4 \/ x = 5 \/ x = 6 \/ x = 7) as D by lia.
  destruct D as [-> | [-> | [-> | [-> | [-> | [-> | [-> | ->]]]]]]]; cbn; split; intro E; try lia;
    destruct E; discriminate.
Qed.

Lemma keeps_written : forall c r v0 h v, keeps c r v0 -> written r h = Some v -> answer c h r = v mod 2 ^ 32.
Proof. intros c r v0 h v K W. rewrite K, W. reflexivity. Qed.

Lemma keeps_same : forall c r v0 h h', keeps c r v0 -> written r h' = written r h -> answer c h' r = answer c h r.
Proof. intros c r v0 h h' K W. rewrite !K, W. reflexivity. Qed.

Lemma written_rw : forall r h v w, written r (h ++ [Rd r v; Wr r w]) = Some w.
Proof. intros. change [Rd r v; Wr r w] with ([Rd r v] ++ [Wr r w]). rewrite app_assoc. apply written_wr. Qed.
Lemma written_rw_other : forall r q h v w, q <> r -> written r (h ++ [Rd q v; Wr q w]) = written r h.
Proof.
  intros. change [Rd q v; Wr q w] with ([Rd q v] ++ [Wr q w]). rewrite app_assoc, written_wr_other, written_rd by assumption.
  reflexivity.
Qed.

Lemma pin_value : forall p, bits (Z.lor p (field 0x700 8 2)) 8 3 = Z.lor (bits p 8 3) 2 /\
  same_but (Z.lor p (field 0x700 8 2)) p 8 3.
Proof.
  intro p. split; [rewrite bits_lor by lia; reflexivity |]. change (field 0x700 8 2) with (2 ^ 9).
  intros b Hb N. rewrite Z.lor_spec, Z.pow2_bits_false by lia. apply orb_false_r.
Qed.

Lemma port_init_pins : forall c h v6 v7, keeps c (PCR 6) v6 -> keeps c (PCR 7) v7 ->
  exists h' w6 w7 g, PORT_init c h = Done h' /\
    written (PCR 6) h' = Some w6 /\ written (PCR 7) h' = Some w7 /\ written (PCCn 75) h' = Some g /\ Z.testbit g 30 = true /\
    (bits w6 8 3 = 2 <-> bits (answer c h (PCR 6)) 8 3 = 0 \/ bits (answer c h (PCR 6)) 8 3 = 2) /\
    (bits w7 8 3 = 2 <-> bits (answer c h (PCR 7)) 8 3 = 0 \/ bits (answer c h (PCR 7)) 8 3 = 2) /\
    same_but w6 (answer c h (PCR 6)) 8 3 /\ same_but w7 (answer c h (PCR 7)) 8 3 /\ same_but g (answer c h (PCCn 75)) 30 1.
Proof.
  intros c h v6 v7 K6 K7. unfold PORT_init, update. cbn [and_then].
  set (g := answer c h (PCCn 75)). set (h1 := h ++ _). set (a6 := answer c h1 (PCR 6)). set (h2 := h1 ++ _).
  set (a7 := answer c h2 (PCR 7)).
  assert (a6 = answer c h (PCR 6)) as E6.
  { apply (keeps_same c (PCR 6) v6 h h1 K6). apply written_rw_other. discriminate. }
  assert (a7 = answer c h (PCR 7)) as E7.
  { apply (keeps_same c (PCR 7) v7 h h2 K7). unfold h2, h1. rewrite !written_rw_other by discriminate. reflexivity. }
  eexists _, _, _, _. split; [reflexivity |]. split; [| split; [| split]].
  { rewrite written_rw_other by discriminate. unfold h2. apply written_rw. }
  { apply written_rw. }
  { rewrite written_rw_other by discriminate. unfold h2. rewrite written_rw_other by discriminate. unfold h1. apply written_rw. }
  rewrite <- E6, <- E7.
  destruct (pin_value a6) as [B6 S6]. destruct (pin_value a7) as [B7 S7].
  split; [| split; [| split; [| split; [| split]]]].
  - rewrite Z.lor_spec. change (Z.testbit 0x40000000 30) with true. apply orb_true_r.
  - rewrite B6. apply lor2_is_2. apply (bits_range a6 8 3). lia.
  - rewrite B7. apply lor2_is_2. apply (bits_range a7 8 3). lia.
  - exact S6.
  - exact S7.
  - intros b B N. rewrite Z.lor_spec. change 0x40000000 with (2 ^ 30). rewrite Z.pow2_bits_false by lia. apply orb_false_r.
Qed.

Lemma uart_init : forall c h v0, keeps c (PCCn 107) v0 ->
  exists h' g, LPUART1_init c h = Done h' /\ written (PCCn 107) h' = Some g /\
    Z.testbit g 30 = true /\
    (bits g 24 3 = 2 <-> bits (answer c h (PCCn 107)) 24 3 = 0 \/ bits (answer c h (PCCn 107)) 24 3 = 2) /\
    (forall b, 0 <= b < 32 -> ~ 24 <= b < 27 -> b <> 30 -> Z.testbit g b = Z.testbit (answer c h (PCCn 107)) b) /\
    written BAUD h' = Some (3 + 22 * 2 ^ 24) /\ written CTRL h' = Some (2 ^ 18 + 2 ^ 19).
Proof.
  intros c h v0 K. unfold LPUART1_init, update. cbn [and_then write].
  set (p := answer c h (PCCn 107)). set (h1 := h ++ _). set (q := answer c h1 (PCCn 107)).
  assert (q = Z.land p (compl 0x40000000) mod 2 ^ 32) as Eq by (apply (keeps_written c (PCCn 107) v0 h1 _ K); unfold h1; apply written_rw).
  change (Z.lor (field 0x1FFF 0 3) (field 0x1F000000 24 22)) with (3 + 22 * 2 ^ 24).
  change (Z.lor 0x40000 0x80000) with (2 ^ 18 + 2 ^ 19).
  eexists _, _. split; [reflexivity |]. split; [| split; [| split; [| split; [| split]]]].
  - rewrite !written_wr_other by discriminate. apply written_rw.
  - rewrite Z.lor_spec. change (Z.testbit (Z.lor (field 0x7000000 24 2) 0x40000000) 30) with true. apply orb_true_r.
  - rewrite bits_lor by lia. change (bits (Z.lor (field 0x7000000 24 2) 0x40000000) 24 3) with 2.
    assert (bits q 24 3 = bits p 24 3) as ->; [| apply lor2_is_2; apply (bits_range p 24 3); lia].
    rewrite Eq. unfold bits. rewrite <- !Z.shiftr_div_pow2, <- !Z.land_ones by lia. rewrite !Z.shiftr_land, <- !Z.land_assoc. reflexivity.
  - intros b B N1 N2. change (Z.lor (field 0x7000000 24 2) 0x40000000) with (Z.lor (2 ^ 25) (2 ^ 30)).
    rewrite !Z.lor_spec, !Z.pow2_bits_false by lia. rewrite !orb_false_r, Eq, Z.mod_pow2_bits_low, Z.land_spec by lia.
    assert (Z.testbit (compl 0x40000000) b = true) as ->; [| apply andb_true_r].
    change (compl 0x40000000) with (Z.lxor (Z.ones 32) (2 ^ 30)).
    rewrite Z.lxor_spec, Z.ones_spec_low, Z.pow2_bits_false by lia. reflexivity.
  - rewrite written_wr_other by discriminate. apply written_wr.
  - apply written_wr.
Qed.

(** ** Console *)

Lemma print_spec : forall bufs fuel dev tr,
  match print_all fuel dev tr bufs with
  | None => ~ ready_within fuel 23 dev
  | Some UB => False
  | Some (Ret tr') => exists acc, tr' = tr ++ acc /\ sends (List.concat bufs) acc
  end.
Proof.
  induction bufs as [| b rest IH]; intros fuel dev tr; cbn [print_all List.concat].
  - exists []. split; [symmetry; apply app_nil_r | constructor].
  - pose proof (sys_write_spec fuel dev tr 1 (Some b) (List.length b)) as W.
    destruct (sys_write fuel dev tr 1 (Some b) (List.length b)) as [[[[r e] tr1] |] |].
    + assert (exists acc, tr1 = tr ++ acc /\ sends b acc) as (acc & -> & Sb).
      { destruct W as [([W | W] & _ & _ & ->) | (d & acc & E & _ & _ & _ & -> & Sb)].
        - discriminate.
        - exists []. destruct b; [| discriminate]. split; [symmetry; apply app_nil_r | constructor].
        - injection E as <-. exists acc. rewrite firstn_all in Sb. auto. }
      specialize (IH fuel dev (tr ++ acc)). destruct (print_all fuel dev (tr ++ acc) rest) as [[tr2 |] |]; [| exact IH | exact IH].
      destruct IH as (acc2 & -> & S2). exists (acc ++ acc2). split; [apply app_assoc_reverse | apply sends_app; assumption].
    + destruct W as (d & E & H). injection E as <-. lia.
    + exact W.
Qed.

Lemma echo_loop_spec : forall rounds fuel dev tr result,
  match echo_loop rounds fuel dev tr result with
  | None => ~ (ready_within fuel 21 dev /\ ready_within fuel 23 dev)
  | Some tr' => exists ds acc, List.length ds = rounds /\ tr' = tr ++ acc /\ rounds_of result ds acc
  end.
Proof.
  induction rounds as [| k IH]; intros fuel dev tr result; cbn [echo_loop].
  - exists [], []. split; [reflexivity |]. split; [symmetry; apply app_nil_r | constructor].
  - destruct (transmit_char fuel dev tr (result mod 256)) as [tr1 |] eqn:E1.
    + apply transmit_char_spec in E1. destruct E1 as (busy & v & Hb & Hv & ->).
      pose proof (echo_spec fuel dev (tr ++ map RdStat busy ++ [RdStat v; WrData (result mod 256)])) as W.
      destruct (receive_and_echo_char fuel dev _) as [tr2 |]; [| exact W].
      destruct W as (d & acc1 & acc2 & -> & R & Sd). specialize (IH fuel dev
        ((tr ++ map RdStat busy ++ [RdStat v; WrData (result mod 256)]) ++ acc1 ++ acc2) result).
      destruct (echo_loop k fuel dev _ result) as [tr3 |]; [| exact IH].
      destruct IH as (ds & acc & Hl & -> & Ro). exists (d :: ds). eexists. split; [cbn; f_equal; exact Hl |].
      split; [| apply ro_cons; [apply sends_one; eassumption | exact R | exact Sd | exact Ro]].
      rewrite <- !app_assoc. reflexivity.
    + intros [_ R]. destruct (transmit_char_ends fuel dev tr (result mod 256) R) as [t E]. congruence.
Qed.

Lemma console_spec : forall rounds fuel dev tr bufs result,
  match console rounds fuel dev tr bufs result with
  | None => ~ (ready_within fuel 21 dev /\ ready_within fuel 23 dev)
  | Some UB => False
  | Some (Ret tr') => exists ds out echo, List.length ds = rounds /\ tr' = tr ++ out ++ echo /\
      sends (line "Running LPUART example"%string ++ line "Input character to echo..."%string ++ List.concat bufs) out /\ rounds_of result ds echo
  end.
Proof.
  intros rounds fuel dev tr bufs result. unfold console.
  pose proof (transmit_string_spec greeting1 fuel dev tr) as T1.
  destruct (transmit_string fuel dev tr greeting1) as [[tr1 |] |]; [| exfalso; apply T1; cbn; tauto | tauto].
  destruct T1 as (_ & acc1 & -> & S1).
  pose proof (transmit_string_spec greeting2 fuel dev (tr ++ acc1)) as T2.
  destruct (transmit_string fuel dev (tr ++ acc1) greeting2) as [[tr2 |] |]; [| exfalso; apply T2; cbn; tauto | tauto].
  destruct T2 as (_ & acc2 & -> & S2).
  pose proof (print_spec bufs fuel dev ((tr ++ acc1) ++ acc2)) as P.
  destruct (print_all fuel dev _ bufs) as [[tr3 |] |]; [| exact P | tauto].
  destruct P as (acc3 & -> & S3).
  pose proof (echo_loop_spec rounds fuel dev (((tr ++ acc1) ++ acc2) ++ acc3) result) as L.
  destruct (echo_loop rounds fuel dev _ result) as [tr4 |]; [| exact L].
  destruct L as (ds & echo & Hl & -> & Ro). exists ds, (acc1 ++ acc2 ++ acc3), echo. split; [exact Hl |].
  split; [rewrite <- !app_assoc; reflexivity |]. split; [| exact Ro].
  apply sends_app; [exact S1 |]. apply sends_app; [exact S2 | exact S3].
Qed.

(** ** Link *)

Lemma align_up_spec : forall x a, 0 < a -> x <= align_up x a < x + a /\ align_up x a mod a = 0.
Proof.
  intros x a Ha. unfold align_up. split; [| apply Z.mod_mul; lia].
  pose proof (Z.div_mod (x + a - 1) a ltac:(lia)) as D. pose proof (Z.mod_pos_bound (x + a - 1) a Ha) as M. nia.
Qed.

Lemma align_up_same : forall x a, 0 < a -> x mod a = 0 -> align_up x a = x.
Proof.
  intros x a Ha Hx. destruct (align_up_spec x a Ha) as [B M].
  assert ((align_up x a - x) mod a = 0) as D by (rewrite Zminus_mod, M, Hx; apply Z.mod_0_l; lia).
  rewrite Z.mod_small in D by lia. lia.
Qed.

Lemma align_pow2_4 : forall x k, 0 <= k -> x mod 4 = 0 -> align_up x (2 ^ k) mod 4 = 0.
Proof.
  intros x k Hk Hx. assert (0 < 2 ^ k) as P by (apply Z.pow_pos_nonneg; lia).
  destruct (Z.le_gt_cases 2 k) as [G | G].
  - destruct (align_up_spec x (2 ^ k) P) as [_ M]. apply Z.mod_divide in M; [| lia]. apply Z.mod_divide; [lia |].
    destruct M as [q ->]. exists (q * 2 ^ (k - 2)). replace k with (k - 2 + 2) at 1 by lia. rewrite Z.pow_add_r by lia.
    change (2 ^ 2) with 4. ring.
  - rewrite align_up_same; [exact Hx | exact P |].
    assert (k = 0 \/ k = 1) as [-> | ->] by lia; [apply Z.mod_1_r |].
    change (2 ^ 1) with 2. rewrite (Z.div_mod x 4) by lia. rewrite Hx, Z.add_0_r.
    replace (4 * (x / 4)) with (2 * (x / 4) * 2) by ring. apply Z.mod_mul. lia.
Qed.

Lemma ram_section_spec : forall dot k size s f e, 0 <= k -> 0 <= size -> dot mod 4 = 0 ->
  ram_section dot (2 ^ k) size = (s, f, e) -> s = f /\ dot <= f /\ f + size <= e /\ e < f + size + 4 /\ e mod 4 = 0.
Proof.
  intros dot k size s f e Hk Hs Hd E. unfold ram_section in E. injection E as <- <- <-.
  assert (0 < 2 ^ k) as P by (apply Z.pow_pos_nonneg; lia).
  pose proof (align_pow2_4 dot k Hk Hd) as M. rewrite (align_up_same (align_up dot (2 ^ k)) 4) by (lia || exact M).
  destruct (align_up_spec dot (2 ^ k) P) as [B _].
  destruct (align_up_spec (align_up dot (2 ^ k) + size) 4 ltac:(lia)) as [B2 M2].
  split; [reflexivity |]. split; [lia |]. split; [lia |]. split; [lia | exact M2].
Qed.

Lemma some_inj : forall (A : Type) (x y : A), Some x = Some y -> x = y.
Proof. intros A x y E. congruence. Qed.

(** What a successful link says about the addresses. *)
Lemma link_facts : forall i k, sane_inputs i -> link i = Some k ->
  let L := symbols k in
  vector_table L = 0 /\
  (m_flash_vectors i = true /\ vector_ram L = 0 /\ vector_size L = 0 \/
   m_flash_vectors i = false /\ vector_ram L = 0x1FFE0000 /\ 0x400 <= vector_size L /\ vector_size L mod 4 = 0 /\
   0x1FFE0000 + vector_size L <= data_ram L) /\
  0x410 + i_text i + i_rest i <= data_rom L /\ data_rom L < 0x410 + i_text i + i_rest i + 4 /\ data_rom L <= 0x180000 /\
  data_section k = data_ram L /\ 0x1FFE0000 <= data_ram L /\
  i_data i <= data_len L < i_data i + 4 /\ data_ram L + data_len L <= code_ram L /\
  code_rom L = data_rom_end L /\ code_section k = code_ram L /\
  i_code i <= code_len L < i_code i + 4 /\ code_ram L + code_len L <= bss_start L /\
  i_bss i <= bss_len L /\ bss_end L <= 0x20000000 /\
  0x20000000 <= custom_end k /\ custom_end k <= heap_base k /\ heap_base k mod 8 = 0 /\ heap_base k + i_heap i = heap_limit k /\
  heap_limit k <= stack_limit k /\ stack_limit k + i_stack i = stack_top k /\ stack_top k = 0x2001F000.
Proof.
  intros i k [H1 H2 H3 H4 H5 H6 H7 H8 [k1 [Hk1 A1]] [k2 [Hk2 A2]] [k3 [Hk3 A3]] H9 H10 H11] E. unfold link in E.
  change (align_up 0 4) with 0 in E. change (align_up 0x400 4) with 0x400 in E. change (align_up 0x410 4) with 0x410 in E.
  change (align_up 0x1FFE0000 4) with 0x1FFE0000 in E. rewrite A1, A2, A3 in E.
  repeat match type of E with (if ?b then None else _) = Some _ => destruct b eqn:?; [discriminate E |] end.
  set (te := align_up (0x410 + i_text i) 4) in *.
  assert (0x410 + i_text i <= te < 0x410 + i_text i + 4) as T by (apply align_up_spec; lia).
  set (re := align_up (0x1FFE0000 + i_user i + (if m_flash_vectors i then 0 else 0x400)) 4) in *.
  assert (0x1FFE0000 + i_user i + (if m_flash_vectors i then 0 else 0x400) <= re /\ re mod 4 = 0) as [R1 R2]
    by (unfold re; split; apply align_up_spec; lia).
  destruct (ram_section re (2 ^ k1) (i_data i)) as [[s1 f1] e1] eqn:S1.
  destruct (ram_section_spec _ _ _ _ _ _ Hk1 H6 R2 S1) as (-> & D1 & D2 & D3 & D4).
  destruct (0x1FFE0000 + 0x20000 <? e1) eqn:G1; [discriminate E |].
  destruct (ram_section e1 (2 ^ k2) (i_code i)) as [[s2 f2] e2] eqn:S2.
  destruct (ram_section_spec _ _ _ _ _ _ Hk2 H7 D4 S2) as (-> & C1 & C2 & C3 & C4).
  destruct (0x1FFE0000 + 0x20000 <? e2) eqn:G2; [discriminate E |].
  destruct (ram_section e2 (2 ^ k3) (i_bss i)) as [[s3 f3] e3] eqn:S3.
  destruct (ram_section_spec _ _ _ _ _ _ Hk3 H8 C4 S3) as (-> & B1 & B2 & B3 & B4).
  destruct (0x1FFE0000 + 0x20000 <? e3) eqn:G3; [discriminate E |].
  set (hb := align_up (0x20000000 + i_custom i) 8) in *.
  assert (0x20000000 + i_custom i <= hb /\ hb mod 8 = 0) as [Hb1 Hb2] by (unfold hb; split; apply align_up_spec; lia).
  repeat match type of E with (if ?b then None else _) = Some _ => destruct b eqn:?; [discriminate E |] end.
  apply some_inj in E. subst k. cbv zeta. unfold data_len, code_len, bss_len.
  cbn [symbols vector_table vector_ram vector_size data_rom data_rom_end data_ram code_rom code_rom_end code_ram bss_start bss_end
       data_section code_section custom_end heap_base heap_limit stack_limit stack_top].
  repeat match goal with H : (_ <? _) = false |- _ => apply Z.ltb_ge in H end.
  match goal with H : negb (_ <=? _) = false |- _ => apply negb_false_iff in H; apply Z.leb_le in H end.
  split; [reflexivity |]. split.
  { destruct (m_flash_vectors i); [left; auto | right]. split; [reflexivity |]. split; [reflexivity |]. split; [lia |].
    split; [| lia]. rewrite Zminus_mod, R2. reflexivity. }
  assert (0x1FFE0000 <= re) as R0 by (destruct (m_flash_vectors i); lia).
  repeat match goal with |- _ /\ _ => split end; first [exact Hb2 | reflexivity | lia].
Qed.

Lemma link_sound : forall i k, sane_inputs i -> link i = Some k -> sound_layout (symbols k).
Proof.
  intros i k Sa E. pose proof Sa as [H1 H2 H3 H4 H5 H6 H7 H8 _ _ _ H9 H10 H11].
  destruct (link_facts i k Sa E) as (F1 & F2 & F3 & F4 & F5 & _ & F6 & F7 & F8 & F9 & _ & F10 & F11 & F12 & F13 & _).
  assert (vector_len (symbols k) = 0 \/
          vector_ram (symbols k) = 0x1FFE0000 /\ 0 <= vector_len (symbols k) /\
          0x1FFE0000 + vector_len (symbols k) <= data_ram (symbols k)) as V.
  { unfold vector_len. destruct (Z.eqb_spec (vector_ram (symbols k)) (vector_table (symbols k))) as [Q | Q]; [left; reflexivity |].
    right. destruct F2 as [(_ & V1 & _) | (_ & V1 & V2 & V3 & V4)]; [congruence |].
    pose proof (Z.div_mod (vector_size (symbols k)) 4). lia. }
  unfold data_len, code_len, bss_len in *.
  constructor; unfold apart, within, data_len, code_len, bss_len; try lia.
Qed.

Lemma link_starts_up : forall i k m fuel, sane_inputs i -> link i = Some k -> 0x40000 <= Z.of_nat fuel ->
  exists m' vtor, init_data_bss fuel (symbols k) m = Some (m', vtor) /\ vtor = vector_ram (symbols k) /\ initialised (symbols k) m m'.
Proof.
  intros i k m fuel Sa E Hf. pose proof Sa as [H1 H2 H3 H4 H5 H6 H7 H8 _ _ _ H9 H10 H11].
  destruct (link_facts i k Sa E) as (F1 & F2 & F3 & F4 & F5 & _ & F6 & F7 & F8 & F9 & _ & F10 & F11 & F12 & F13 & _).
  apply init_spec; [eapply link_sound; eauto | | |]; unfold bss_len in *; lia.
Qed.

Lemma link_places : forall i k, sane_inputs i -> link i = Some k ->
  let L := symbols k in
  vector_ram L mod 1024 = 0 /\ data_section k = data_ram L /\ code_section k = code_ram L /\
  in_lower_ram (data_ram L) (data_len L) /\ in_lower_ram (code_ram L) (code_len L) /\ in_lower_ram (bss_start L) (bss_len L) /\
  in_upper_ram (heap_base k) (i_heap i) /\ in_upper_ram (stack_limit k) (i_stack i) /\
  custom_end k <= heap_base k /\ heap_base k mod 8 = 0 /\ stack_top k mod 8 = 0 /\
  apart (heap_base k) (i_heap i) (stack_limit k) (i_stack i) /\
  i_data i <= data_len L /\ i_code i <= code_len L /\ i_bss i <= bss_len L.
Proof.
  intros i k Sa E. pose proof Sa as [H1 H2 H3 H4 H5 H6 H7 H8 _ _ _ H9 H10 H11].
  destruct (link_facts i k Sa E) as (F1 & F2 & F3 & F4 & F5 & F0 & F6 & F7 & F8 & F9 & Fc & F10 & F11 & F12 & F13 & G1 & G2 & G3 & G4 & G5 & G6 & G7).
  cbv zeta in *. unfold in_lower_ram, in_upper_ram, apart, within. unfold bss_len in *.
  split; [destruct F2 as [(_ & -> & _) | (_ & -> & _)]; reflexivity |].
  split; [exact F0 |]. split; [exact Fc |]. split; [lia |]. split; [lia |]. split; [lia |]. split; [lia |]. split; [lia |].
  split; [lia |]. split; [exact G3 |]. split; [rewrite G7; reflexivity |]. split; [intros; lia |]. lia.
Qed.

Lemma link_image_outside : forall i k, sane_inputs i -> link i = Some k ->
  0x17FBF0 < i_text i + i_rest i + i_data i + i_code i -> ~ in_flash (data_rom (symbols k)) (data_len (symbols k) + code_len (symbols k)).
Proof.
  intros i k Sa E H. pose proof Sa as [H1 H2 H3 H4 H5 H6 H7 H8 _ _ _ H9 H10 H11].
  destruct (link_facts i k Sa E) as (F1 & F2 & F3 & F4 & F5 & F0 & F6 & F7 & F8 & F9 & Fc & F10 & F11 & F12 & F13 & _).
  unfold in_flash. lia.
Qed.

Lemma multiple_within : forall a x y z, 0 < a -> y mod a = 0 -> z mod a = 0 -> x <= y < x + a -> x <= z < x + a -> y = z.
Proof.
  intros a x y z Ha Hy Hz By Bz.
  pose proof (Z.div_mod y a ltac:(lia)) as D1. pose proof (Z.div_mod z a ltac:(lia)) as D2. rewrite Hy in D1. rewrite Hz in D2.
  assert (y / a = z / a) as Q by nia. congruence.
Qed.

(** The image takes data and code, each rounded up to a word. *)
Lemma link_image_exact : forall i k, sane_inputs i -> link i = Some k ->
  exists t d c, next_multiple 4 (0x410 + i_text i) t /\ next_multiple 4 (i_data i) d /\ next_multiple 4 (i_code i) c /\
    data_rom (symbols k) = t + i_rest i /\ data_len (symbols k) = d /\ code_len (symbols k) = c.
Proof.
  intros i k [H1 H2 H3 H4 H5 H6 H7 H8 [k1 [Hk1 A1]] [k2 [Hk2 A2]] [k3 [Hk3 A3]] H9 H10 H11] E. unfold link in E.
  change (align_up 0 4) with 0 in E. change (align_up 0x400 4) with 0x400 in E. change (align_up 0x410 4) with 0x410 in E.
  change (align_up 0x1FFE0000 4) with 0x1FFE0000 in E. rewrite A1, A2, A3 in E.
  repeat match type of E with (if ?b then None else _) = Some _ => destruct b eqn:?; [discriminate E |] end.
  set (te := align_up (0x410 + i_text i) 4) in *.
  assert (0x410 + i_text i <= te < 0x410 + i_text i + 4 /\ te mod 4 = 0) as T by (apply align_up_spec; lia).
  set (re := align_up (0x1FFE0000 + i_user i + (if m_flash_vectors i then 0 else 0x400)) 4) in *.
  assert (re mod 4 = 0) as R2 by (apply align_up_spec; lia).
  assert (forall dot kk size s f e, 0 <= kk -> dot mod 4 = 0 -> ram_section dot (2 ^ kk) size = (s, f, e) -> f mod 4 = 0) as F4.
  { intros dot kk size s f e Hk Hd X. unfold ram_section in X. injection X as _ <- _. apply align_up_spec. lia. }
  destruct (ram_section re (2 ^ k1) (i_data i)) as [[s1 f1] e1] eqn:S1.
  destruct (ram_section_spec _ _ _ _ _ _ Hk1 H6 R2 S1) as (-> & D1 & D2 & D3 & D4). pose proof (F4 _ _ _ _ _ _ Hk1 R2 S1) as D5.
  destruct (0x1FFE0000 + 0x20000 <? e1) eqn:G1; [discriminate E |].
  destruct (ram_section e1 (2 ^ k2) (i_code i)) as [[s2 f2] e2] eqn:S2.
  destruct (ram_section_spec _ _ _ _ _ _ Hk2 H7 D4 S2) as (-> & C1 & C2 & C3 & C4). pose proof (F4 _ _ _ _ _ _ Hk2 D4 S2) as C5.
  destruct (0x1FFE0000 + 0x20000 <? e2) eqn:G2; [discriminate E |].
  destruct (ram_section e2 (2 ^ k3) (i_bss i)) as [[s3 f3] e3] eqn:S3.
  destruct (0x1FFE0000 + 0x20000 <? e3) eqn:G3; [discriminate E |].
  repeat match type of E with (if ?b then None else _) = Some _ => destruct b eqn:?; [discriminate E |] end.
  apply some_inj in E. subst k. unfold data_len, code_len.
  cbn [symbols data_rom data_rom_end code_rom code_rom_end].
  exists te, (e1 - f1), (e2 - f2). unfold next_multiple.
  split; [exact T |]. split; [split; [lia | rewrite Zminus_mod, D4, D5; reflexivity] |].
  split; [split; [lia | rewrite Zminus_mod, C4, C5; reflexivity] |]. split; [reflexivity |]. lia.
Qed.

Lemma link_image_iff : forall i k t d c, sane_inputs i -> link i = Some k ->
  next_multiple 4 (0x410 + i_text i) t -> next_multiple 4 (i_data i) d -> next_multiple 4 (i_code i) c ->
  (in_flash (data_rom (symbols k)) (data_len (symbols k) + code_len (symbols k)) <-> t + i_rest i + d + c <= 0x180000).
Proof.
  intros i k t d c Sa E [T1 T2] [D1 D2] [C1 C2].
  destruct (link_image_exact i k Sa E) as (t' & d' & c' & [T3 T4] & [D3 D4] & [C3 C4] & X & Y & Z).
  rewrite X, Y, Z. assert (t' = t) as -> by (eapply multiple_within; eauto; lia).
  assert (d' = d) as -> by (eapply multiple_within; eauto; lia). assert (c' = c) as -> by (eapply multiple_within; eauto; lia).
  pose proof (si_text i Sa). pose proof (si_rest i Sa). unfold in_flash. lia.
Qed.

Lemma next_multiple_unique : forall a x y z, 0 < a -> next_multiple a x y -> next_multiple a x z -> y = z.
Proof.
  intros a x y z Ha [By My] [Bz Mz]. apply Z.mod_divide in My; [| lia]. apply Z.mod_divide in Mz; [| lia].
  destruct My as [p ->], Mz as [q ->]. f_equal. nia.
Qed.

Lemma next_multiple_align : forall a x, 0 < a -> next_multiple a x (align_up x a).
Proof. intros a x Ha. destruct (align_up_spec x a Ha). split; assumption. Qed.

Lemma ram_section_next : forall dot k size, 0 <= k -> dot mod 4 = 0 ->
  exists f e, ram_section dot (2 ^ k) size = (f, f, e) /\ next_multiple (2 ^ k) dot f /\ next_multiple 4 (f + size) e.
Proof.
  intros dot k size Hk Hd. assert (0 < 2 ^ k) as P by (apply Z.pow_pos_nonneg; lia).
  pose proof (align_pow2_4 dot k Hk Hd) as M. unfold ram_section.
  rewrite (align_up_same (align_up dot (2 ^ k)) 4) by (lia || exact M).
  eexists _, _. split; [reflexivity |]. split; apply next_multiple_align; lia.
Qed.

Lemma link_iff : forall i, sane_inputs i ->
  ((exists k, link i = Some k) <-> fits_flash i /\ fits_lower_ram i /\ fits_upper_ram i).
Proof.
  intros i [H1 H2 H3 H4 H5 H6 H7 H8 [k1 [Hk1 A1]] [k2 [Hk2 A2]] [k3 [Hk3 A3]] H9 H10 H11].
  assert (0 < 2 ^ k1) as P1 by (apply Z.pow_pos_nonneg; lia). assert (0 < 2 ^ k2) as P2 by (apply Z.pow_pos_nonneg; lia).
  assert (0 < 2 ^ k3) as P3 by (apply Z.pow_pos_nonneg; lia).
  unfold link, fits_flash, fits_lower_ram, fits_upper_ram.
  change (align_up 0 4) with 0. change (align_up 0x400 4) with 0x400. change (align_up 0x410 4) with 0x410.
  change (align_up 0x1FFE0000 4) with 0x1FFE0000. rewrite A1, A2, A3.
  replace (0x1FFE0000 + i_user i + (if m_flash_vectors i then 0 else 0x400))
    with (0x1FFE0000 + (if m_flash_vectors i then 0 else 0x400) + i_user i) by lia.
  pose proof (align_up_spec (0 + i_vectors i) 4 ltac:(lia)) as [V V']. set (ve := align_up (0 + i_vectors i) 4) in *.
  pose proof (align_up_spec (0x400 + i_config i) 4 ltac:(lia)) as [C C']. set (ce := align_up (0x400 + i_config i) 4) in *.
  pose proof (next_multiple_align 4 (0x410 + i_text i) ltac:(lia)) as T. set (te := align_up (0x410 + i_text i) 4) in *.
  set (dot := 0x1FFE0000 + (if m_flash_vectors i then 0 else 0x400) + i_user i).
  pose proof (next_multiple_align 4 dot ltac:(lia)) as R. set (re := align_up dot 4) in *.
  destruct (ram_section_next re k1 (i_data i) Hk1 (proj2 R)) as (f1 & e1 & -> & F1 & E1).
  destruct (ram_section_next e1 k2 (i_code i) Hk2 (proj2 E1)) as (f2 & e2 & -> & F2 & E2).
  destruct (ram_section_next e2 k3 (i_bss i) Hk3 (proj2 E2)) as (f3 & e3 & -> & F3 & E3).
  pose proof (next_multiple_align 8 (0x20000000 + i_custom i) ltac:(lia)) as Hb. set (hb := align_up (0x20000000 + i_custom i) 8) in *.
  pose proof (next_multiple_align 8 (hb + i_heap i) ltac:(lia)) as Sb. set (sb := align_up (hb + i_heap i) 8) in *.
  assert (ve mod 4 = 0 -> (0x400 <? ve) = false <-> i_vectors i <= 0x400) as Qv.
  { intro M. rewrite Z.ltb_ge. split; [lia |]. intro. pose proof (Z.div_mod ve 4 ltac:(lia)). lia. }
  specialize (Qv V').
  assert (ce mod 4 = 0 -> (0x410 <? ce) = false <-> i_config i <= 0x10) as Qc.
  { intro M. rewrite Z.ltb_ge. split; [lia |]. intro. pose proof (Z.div_mod ce 4 ltac:(lia)). lia. }
  specialize (Qc C').
  unfold next_multiple in R, F1, E1, F2, E2, F3, E3, Hb, Sb.
  split.
  - intros [k E].
    repeat match type of E with (if ?b then None else _) = Some _ => destruct b eqn:?; [discriminate E |] end. clear E.
    repeat match goal with H : (_ <? _) = false |- _ => apply Z.ltb_ge in H end.
    split; [| split].
    + split; [lia |]. split; [lia |]. exists te. split; [exact T | lia].
    + exists re, f1, e1, f2, e2, f3, e3. unfold next_multiple. repeat (split; [assumption |]). lia.
    + exists hb, sb. split; [exact Hb |]. split; [exact Sb | lia].
  - intros ((G1 & G2 & t & G3 & G4) & (r0 & d & r1 & cc & r2 & b & r3 & N0 & N1 & N2 & N3 & N4 & N5 & N6 & N7) & h & s & N8 & N9 & N10).
    assert (t = te) as -> by (eapply (next_multiple_unique 4); eauto; lia).
    assert (r0 = re) as -> by (eapply (next_multiple_unique 4); eauto; lia).
    assert (d = f1) as -> by (eapply (next_multiple_unique (2 ^ k1)); eauto; lia).
    assert (r1 = e1) as -> by (eapply (next_multiple_unique 4); eauto; lia).
    assert (cc = f2) as -> by (eapply (next_multiple_unique (2 ^ k2)); eauto; lia).
    assert (r2 = e2) as -> by (eapply (next_multiple_unique 4); eauto; lia).
    assert (b = f3) as -> by (eapply (next_multiple_unique (2 ^ k3)); eauto; lia).
    assert (r3 = e3) as -> by (eapply (next_multiple_unique 4); eauto; lia).
    assert (h = hb) as -> by (eapply (next_multiple_unique 8); eauto; lia).
    assert (s = sb) as -> by (eapply (next_multiple_unique 8); eauto; lia).
    rewrite (proj2 Qv G1), (proj2 Qc G2).
    repeat match goal with |- exists k, (if ?x <? ?y then None else _) = Some k =>
      destruct (Z.ltb_spec x y); [exfalso; lia |] end.
    match goal with |- exists k, (if negb (?x <=? ?y) then None else _) = Some k =>
      destruct (Z.leb_spec x y); [| exfalso; lia] end.
    cbn [negb]. eexists. reflexivity.
Qed.

(** ** The PLL's dividers *)

Lemma poll_written : forall n c r busy h h' q, poll_while n c r busy h = Done h' -> written q h' = written q h.
Proof.
  induction n as [| n IH]; intros c r busy h h' q E; cbn [poll_while] in E; [discriminate |].
  destruct (busy (answer c h r)).
  - apply IH with (q := q) in E. rewrite E. apply written_rd.
  - injection E as <-. apply written_rd.
Qed.

Lemma lor3_is_3 : forall x, 0 <= x < 8 -> (Z.lor x 3 = 3 <-> x < 4).
Proof.
  intros x H. assert (x = 0 \/ x = 1 \/ x = 2 \/ x = 3 \/ x = 4 \/ x = 5 \/ x = 6 \/ x = 7) as D by lia.
  repeat (destruct D as [-> | D]; [cbn; lia |]). subst. cbn. lia.
Qed.

Lemma spll_dividers : forall n c h h' v0, keeps c SPLLDIV v0 -> SPLL_init_160MHz n c h = Done h' ->
  exists w, written SPLLDIV h' = Some w /\
    (bits w 0 3 = 2 <-> bits (answer c h SPLLDIV) 0 3 = 0 \/ bits (answer c h SPLLDIV) 0 3 = 2) /\
    (bits w 8 3 = 3 <-> bits (answer c h SPLLDIV) 8 3 < 4).
Proof.
  intros n c h h' v0 K E. unfold SPLL_init_160MHz in E.
  destruct (poll_while n c SPLLCSR (has LK_MASK) h) as [x | h1] eqn:E1; cbn [and_then] in E; [discriminate |].
  pose proof (poll_written _ _ _ _ _ _ SPLLDIV E1) as W1. unfold update in E. cbn [and_then write] in E.
  match type of E with context [answer c (h1 ++ ?x) SPLLDIV] => set (h2 := h1 ++ x) in * end.
  assert (answer c h2 SPLLDIV = answer c h SPLLDIV) as A.
  { rewrite !K. unfold h2. rewrite written_rw_other by discriminate. rewrite W1. reflexivity. }
  rewrite A in E. set (v := answer c h SPLLDIV) in *.
  change (Z.lor (field 0x7 0 2) (field 0x700 8 3)) with 0x302 in E.
  match type of E with and_then (poll_while n c SPLLCSR _ ?x) _ = _ => set (h3 := x) in * end.
  destruct (poll_while n c SPLLCSR (has LK_MASK) h3) as [x | h4] eqn:E4; cbn [and_then] in E; [discriminate |].
  pose proof (poll_written _ _ _ _ _ _ SPLLDIV E4) as W4.
  pose proof (poll_written _ _ _ _ _ _ SPLLDIV E) as W5.
  exists (Z.lor v 0x302). split; [| split].
  - rewrite W5, written_rw_other by discriminate. rewrite W4. unfold h3. rewrite written_wr_other by discriminate. apply written_rw.
  - rewrite bits_lor by lia. change (bits 0x302 0 3) with 2. apply lor2_is_2. apply (bits_range v 0 3). lia.
  - rewrite bits_lor by lia. change (bits 0x302 8 3) with 3. apply lor3_is_3. apply (bits_range v 8 3). lia.
Qed.

(** ** Reads *)

Lemma true_reads_refl : forall c h, true_reads c h h.
Proof. intros c h. exists []. split; [now rewrite app_nil_r |]. intros [| x a1] r v a2 E; discriminate E. Qed.

Lemma true_reads_trans : forall c h h1 h2, true_reads c h h1 -> true_reads c h1 h2 -> true_reads c h h2.
Proof.
  intros c h h1 h2 (a & -> & A) (b & -> & B). exists (a ++ b). split; [now rewrite app_assoc |].
  intros a1 r v a2 E. revert a A B E. 
  assert (forall a d, (forall a1 r v a2, a = a1 ++ Rd r v :: a2 -> v = answer c (d ++ a1) r) ->
            (forall a1 r v a2, b = a1 ++ Rd r v :: a2 -> v = answer c ((d ++ a) ++ a1) r) ->
            forall a1 r v a2, a ++ b = a1 ++ Rd r v :: a2 -> v = answer c (d ++ a1) r) as G.
  { induction a as [| x a IH]; intros d A B b1 q w b2 E.
    - rewrite app_nil_r in B. eapply B. exact E.
    - destruct b1 as [| y b1].
      + cbn [app] in E. injection E as -> E. apply (A [] q w a). reflexivity.
      + cbn [app] in E. injection E as <- E.
        replace (d ++ x :: b1) with ((d ++ [x]) ++ b1) by (rewrite <- app_assoc; reflexivity).
        refine (IH (d ++ [x]) _ _ b1 q w b2 E).
        * intros c1 q1 w1 c2 E1. rewrite <- app_assoc. apply (A (x :: c1) q1 w1 c2). cbn [app]. now rewrite E1.
        * intros c1 q1 w1 c2 E1. replace (((d ++ [x]) ++ a) ++ c1) with ((d ++ x :: a) ++ c1) by (rewrite <- !app_assoc; reflexivity).
          apply (B c1 q1 w1 c2 E1). }
  intros a A B E. eapply G; eassumption.
Qed.

Lemma true_reads_rd : forall c h r, true_reads c h (h ++ [Rd r (answer c h r)]).
Proof.
  intros c h r. eexists. split; [reflexivity |]. intros [| x [| y a1]] q v a2 E; [| discriminate E | discriminate E].
  injection E as <- <- _. now rewrite app_nil_r.
Qed.
Lemma true_reads_wr : forall c h r v, true_reads c h (h ++ [Wr r v]).
Proof.
  intros c h r v. eexists. split; [reflexivity |]. intros [| x [| y a1]] q w a2 E; discriminate E.
Qed.
Lemma true_reads_update : forall c h r w, true_reads c h (h ++ [Rd r (answer c h r); Wr r w]).
Proof.
  intros c h r w. replace (h ++ [Rd r (answer c h r); Wr r w]) with ((h ++ [Rd r (answer c h r)]) ++ [Wr r w]) by (rewrite <- app_assoc; reflexivity).
  eapply true_reads_trans; [apply true_reads_rd | apply true_reads_wr].
Qed.

Lemma true_reads_then : forall c h p k, true_reads c h (history p) -> (forall h1, p = Done h1 -> true_reads c h1 (history (k h1))) ->
  true_reads c h (history (and_then p k)).
Proof.
  intros c h [h1 | h1] k A B; cbn [and_then history] in *; [assumption |]. eapply true_reads_trans; [exact A | now apply B].
Qed.
Lemma true_reads_poll : forall c r busy n h, true_reads c h (history (poll_while n c r busy h)).
Proof.
  intros c r busy n. induction n as [| n IH]; intros h; cbn [poll_while]; [apply true_reads_refl |]. cbv zeta.
  destruct (busy (answer c h r)); [| apply true_reads_rd]. eapply true_reads_trans; [apply true_reads_rd | apply IH].
Qed.

Ltac reads := repeat (cbn [history] in *; first
  [ apply true_reads_poll | apply true_reads_wr | apply true_reads_update | apply true_reads_refl
  | apply true_reads_then; [| intros ? _] ]).

Lemma bring_up_reads : forall n c h, true_reads c h (history (bring_up n c h)).
Proof.
  intros n c h.
  unfold bring_up, WDOG_disable, SOSC_init_8MHz, SPLL_init_160MHz, NormalRUNmode_80MHz, PORT_init, LPUART1_init, write, update.
  reads.
Qed.

Lemma SystemInit_reads : forall fpu c h, true_reads c h (history (SystemInit fpu c h)).
Proof.
  intros fpu c h. unfold SystemInit, write, update.
  apply true_reads_then; [destruct fpu; reads | intros h1 _]. apply true_reads_then; [reads | intros h2 _]. cbv zeta.
  eapply true_reads_trans; [apply true_reads_rd |]. reads.
Qed.

Lemma core_clock_reads : forall c h old f h', SystemCoreClockUpdate c h old = Ret (f, h') ->
  true_reads c h h' /\ exists a, h' = h ++ a /\ forall x, In x a -> exists r v, x = Rd r v /\ In r [CSR; SIRCCFG; FIRCCFG; SPLLCFG].
Proof.
  intros c h old f h' E. unfold SystemCoreClockUpdate in E.
  set (v0 := answer c h CSR) in *. set (h1 := h ++ [Rd CSR v0]) in *.
  set (v1 := answer c h1 CSR) in *. set (h2 := h1 ++ [Rd CSR v1]) in *.
  set (divider := add32 _ _) in *.
  assert (forall a, (forall x, In x a -> exists r v, x = Rd r v /\ In r [SIRCCFG; FIRCCFG; SPLLCFG]) -> true_reads c h2 (h2 ++ a) ->
          true_reads c h (h2 ++ a) /\ exists b, h2 ++ a = h ++ b /\ forall x, In x b -> exists r v, x = Rd r v /\ In r [CSR; SIRCCFG; FIRCCFG; SPLLCFG]) as G.
  { intros a A T. split.
    - eapply true_reads_trans; [| exact T]. eapply true_reads_trans; [apply true_reads_rd | apply true_reads_rd].
    - exists (Rd CSR v0 :: Rd CSR v1 :: a). split; [unfold h2, h1; rewrite <- !app_assoc; reflexivity |].
      intros x [<- | [<- | I]]; [eexists _, _; split; [reflexivity | now left] | eexists _, _; split; [reflexivity | now left] |].
      destruct (A x I) as (r & v & -> & J). eexists _, _. split; [reflexivity | now right]. }
  assert (forall r, In r [SIRCCFG; FIRCCFG; SPLLCFG] -> forall x, In x [Rd r (answer c h2 r)] -> exists r v, x = Rd r v /\ In r [SIRCCFG; FIRCCFG; SPLLCFG]) as One.
  { intros r J x [<- | []]. eauto. }
  cbv zeta in E.
  destruct (get SCS_MASK SCS_SHIFT v1 =? 1).
  { destruct (divider =? 0); [discriminate E |]. injection E as _ <-.
    destruct (G []) as [T X]; [intros x [] | rewrite app_nil_r; apply true_reads_refl |]. rewrite app_nil_r in T, X. now split. }
  destruct (get SCS_MASK SCS_SHIFT v1 =? 2).
  { destruct (divider =? 0); [discriminate E |]. injection E as _ <-.
    apply G; [apply One; now left | apply true_reads_rd]. }
  destruct (get SCS_MASK SCS_SHIFT v1 =? 3).
  { destruct (nth_error _ _); [| discriminate E]. destruct (divider =? 0); [discriminate E |]. injection E as _ <-.
    apply G; [apply One; right; now left | apply true_reads_rd]. }
  destruct (get SCS_MASK SCS_SHIFT v1 =? 6).
  { destruct (mul32 _ 2 =? 0); [discriminate E |]. destruct (divider =? 0); [discriminate E |]. injection E as _ <-.
    rewrite <- app_assoc. cbn [app]. apply G.
    - intros x [<- | [<- | []]]; (eexists _, _; split; [reflexivity | right; right; now left]).
    - change [Rd SPLLCFG (answer c h2 SPLLCFG); Rd SPLLCFG (answer c (h2 ++ [Rd SPLLCFG (answer c h2 SPLLCFG)]) SPLLCFG)]
        with ([Rd SPLLCFG (answer c h2 SPLLCFG)] ++ [Rd SPLLCFG (answer c (h2 ++ [Rd SPLLCFG (answer c h2 SPLLCFG)]) SPLLCFG)]).
      rewrite app_assoc. eapply true_reads_trans; apply true_reads_rd. }
  injection E as _ <-.
  destruct (G []) as [T X]; [intros x [] | rewrite app_nil_r; apply true_reads_refl |]. rewrite app_nil_r in T, X. now split.
Qed.
