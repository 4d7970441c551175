(** C100-C106: configuration of the evaluation board. *)
From Coq Require Import ZArith Bool List String Lia.
From Verif Require Import Outcome TargetModel TargetSpec TargetProofs BoardModel BoardSpec BoardProofs.
Import ListNotations.
Open Scope list_scope.
Open Scope Z_scope.

(** C100. On a chip whose registers hold [regs], the variable gets the core frequency, and keeps its value if CSR names no source. *)
Theorem C100_core_clock_exact_partial : forall c regs h old, steady c regs ->
  exists f h', SystemCoreClockUpdate c h old = Ret (f, h') /\
    (core_hz regs f \/ ((forall num den, ~ source regs num den) /\ f = old)).
Proof. exact core_clock_exact. Qed.
Print Assumptions C100_core_clock_exact_partial.
(** The frequency is unique, so that this determines it. *)
Theorem C100_core_frequency_unique : forall regs f g, core_hz regs f -> core_hz regs g -> f = g.
Proof. exact core_hz_unique. Qed.
Print Assumptions C100_core_frequency_unique.
(** Whatever the registers answer, nothing undefined happens. *)
Theorem C100_always_defined : forall c h old, exists f h', SystemCoreClockUpdate c h old = Ret (f, h').
Proof. exact core_clock_defined. Qed.
Print Assumptions C100_always_defined.
(** Full statement: if CSR changes meanwhile, the answer is the frequency before or after the change. CSR is read twice, and the
    answer can be neither: *)
Definition regs_before : reg -> Z := fun r => if reg_eq_dec r CSR then 0x6010000 else 0x180000.
Definition regs_after : reg -> Z := fun r => if reg_eq_dec r CSR then 0x1000000 else 0x180000.
Theorem C100_changing_clock_refuted : exists c f h',
  (forall h r, answer c h r = regs_before r \/ answer c h r = regs_after r) /\
  SystemCoreClockUpdate c [] 0 = Ret (f, h') /\ ~ core_hz regs_before f /\ ~ core_hz regs_after f.
Proof.
  exists (fun h r => match h with [] => regs_before r | _ => regs_after r end), 4000000. eexists. split; [| split; [| split]].
  - intros h r. unfold answer. destruct h; [left | right]; unfold regs_before, regs_after; destruct (reg_eq_dec r CSR); reflexivity.
  - reflexivity.
  - intros (num & den & S & B). cbv zeta in B. change (bits (regs_before CSR) 16 4 + 1) with 2 in B.
    inversion S as [Hc | Hc | Hc | Hc | Hc]; try (vm_compute in Hc; discriminate Hc). subst num den.
    change (8000000 * (bits (regs_before SPLLCFG) 16 5 + 16)) with 320000000 in B.
    change (2 * (bits (regs_before SPLLCFG) 8 3 + 1)) with 2 in B. lia.
  - intros (num & den & S & B). cbv zeta in B. change (bits (regs_after CSR) 16 4 + 1) with 1 in B.
    inversion S as [Hc | Hc | Hc | Hc | Hc]; try (vm_compute in Hc; discriminate Hc). subst num den. lia.
Qed.
Print Assumptions C100_changing_clock_refuted.
(** Exactly, whatever the registers answer and however they change: the answer is the frequency of a chip each of whose fields is as it
    is when it is read. It can only be wrong if CSR changes between its two reads, or the PLL's configuration between its two. *)
Theorem C100_when_read : forall c regs h old, when_read c h regs ->
  exists f h', SystemCoreClockUpdate c h old = Ret (f, h') /\
    (core_hz regs f \/ ((forall num den, ~ source regs num den) /\ f = old)).
Proof. exact core_clock_when_read. Qed.
Print Assumptions C100_when_read.
Theorem C100_when_read_some : forall c h, exists regs, when_read c h regs.
Proof. exact when_read_some. Qed.
Print Assumptions C100_when_read_some.
(** It writes no register, and reads no other than these. *)
Theorem C100_only_reads : forall c h old f h', SystemCoreClockUpdate c h old = Ret (f, h') -> true_reads c h h' /\
  exists a, h' = h ++ a /\ forall x, In x a -> exists r v, x = Rd r v /\ In r [CSR; SIRCCFG; FIRCCFG; SPLLCFG].
Proof. exact core_clock_reads. Qed.
Print Assumptions C100_only_reads.
(** CSR changes after its first read from the PLL, halved, to the crystal: half the crystal's frequency. *)
Example C100_when_read_case :
  let c : chip := fun h r => match h with [] => regs_before r | _ => regs_after r end in
  let regs : reg -> Z := fun r => if reg_eq_dec r CSR then 0x1010000 else 0x180000 in
  when_read c [] regs /\ core_hz regs 4000000 /\ exists h', SystemCoreClockUpdate c [] 0 = Ret (4000000, h').
Proof.
  cbv zeta. split; [vm_compute; repeat split |]. split; [| eexists; reflexivity].
  exists 8000000, 1. split; [apply src_crystal; reflexivity |]. vm_compute. split; [discriminate | reflexivity].
Qed.
(** The PLL with PREDIV 1, MULT 27 and DIVCORE 2: 8 MHz * 43 / 4 / 3. *)
Definition ex_regs : reg -> Z := fun r => if reg_eq_dec r CSR then 0x6020000 else if reg_eq_dec r SPLLCFG then 0x1B0100 else 0.
Example C100_case : steady (fun _ r => ex_regs r) ex_regs /\ core_hz ex_regs 28666666 /\
  (exists h', SystemCoreClockUpdate (fun _ r => ex_regs r) [] 48000000 = Ret (28666666, h')) /\
  (exists h', SystemCoreClockUpdate (fun _ _ => 0) [] 48000000 = Ret (48000000, h')).
Proof.
  split; [| split; [| split; eexists; reflexivity]].
  - intros h r. unfold answer, ex_regs. destruct (reg_eq_dec r CSR); [reflexivity |]. destruct (reg_eq_dec r SPLLCFG); reflexivity.
  - eexists _, _. split; [apply src_pll; reflexivity |]. vm_compute. split; [discriminate | reflexivity].
Qed.

(** C101. However the chip answers and however many reads the waiting loops get, the accesses made so far keep the order. *)
Theorem C101_clock_sequence_orderly : forall n c h0, exists a, history (bring_up n c h0) = h0 ++ a /\ orderly a.
Proof. exact bring_up_orderly. Qed.
Print Assumptions C101_clock_sequence_orderly.
(** What these accesses say was seen, the chip did answer. *)
Theorem C101_seen_is_answered : forall n fpu c h,
  true_reads c h (history (bring_up n c h)) /\ true_reads c h (history (SystemInit fpu c h)).
Proof. intros n fpu c h. split; [apply bring_up_reads | apply SystemInit_reads]. Qed.
Print Assumptions C101_seen_is_answered.

(** A chip whose control registers are locked at some reads and report a valid clock at others. *)
Definition ex_chip : chip := fun h r =>
  let v := match written r h with Some v => v | None => 0 end in
  match r with
  | SOSCCSR | SPLLCSR =>
      let v := Z.land v 1 in
      if (List.length h mod 3 =? 0)%nat then Z.lor v 0x1000000 else if (List.length h mod 3 =? 1)%nat then v else Z.lor v 0x800000
  | CSR => match written RCCR h with Some w => w | None => 0 end
  | _ => v
  end.
Example C101_case : (exists h, bring_up 3 ex_chip [] = Done h /\ List.length h = 37%nat) /\
  (exists h, bring_up 9 (fun _ _ => 0) [] = Waiting h /\ List.length h = 16%nat) /\
  ~ orderly [Rd SOSCCSR 0x800000; Wr SOSCCSR 1].
Proof.
  split; [eexists; split; vm_compute; reflexivity |]. split; [eexists; split; vm_compute; reflexivity |].
  intro O. destruct (O [Rd SOSCCSR 0x800000] SOSCCSR 1 [] eq_refl) as (h1 & v & h2 & E & B & _).
  destruct h1 as [| x h1]; [| destruct h1; discriminate]. injection E as <- <-. discriminate B.
Qed.

(** C102. On a chip that comes up, the bring-up ends. *)
Theorem C102_bring_up_ends : forall n c h, lively n c -> exists h', bring_up n c h = Done h'.
Proof. exact bring_up_ends. Qed.
Print Assumptions C102_bring_up_ends.
(** When it has ended, on any chip, these are the last values written: RCCR selects the PLL, and divides by 2 for the core, by 2 again for
    the bus and by 3 for the flash; the PLL multiplies by 40 and is enabled. *)
Theorem C102_clocks_configured : forall n c h0 h', bring_up n c h0 = Done h' ->
  exists rccr spllcfg spllcsr, written RCCR h' = Some rccr /\ written SPLLCFG h' = Some spllcfg /\ written SPLLCSR h' = Some spllcsr /\
    bits rccr 24 4 = 6 /\ bits rccr 16 4 = 1 /\ bits rccr 4 4 = 1 /\ bits rccr 0 4 = 2 /\
    bits spllcfg 16 5 = 24 /\ bits spllcfg 8 3 = 0 /\ bits spllcsr 0 1 = 1 /\
    written SOSCCSR h' = Some 1 /\ written SIRCDIV h' = Some (1 + 1 * 2 ^ 8) /\
    written SOSCDIV h' = Some (1 + 1 * 2 ^ 8) /\ written SOSCCFG h' = Some (1 * 2 ^ 2 + 2 * 2 ^ 4).
Proof.
  intros n c h0 h' E. destruct (bring_up_written n c h0 h' E) as (W & w & P1 & P2).
  exists 0x6010012, 0x180000, w. split; [apply W; cbn; tauto |]. split; [apply W; cbn; tauto |]. split; [exact P1 |].
  do 6 (split; [reflexivity |]). split; [| repeat split; apply W; cbn; tauto].
  unfold bits. rewrite Z.div_1_r. change (2 ^ 1) with 2. rewrite Zmod_odd, <- Z.bit0_odd, P2. reflexivity.
Qed.
Print Assumptions C102_clocks_configured.
(** The PLL's dividers for peripherals, which are to be 2 and 3, are only added to what they were. From what the register holds after a
    reset (0) they are right: *)
Theorem C102_pll_dividers : forall n c h h' v0, keeps c SPLLDIV v0 -> SPLL_init_160MHz n c h = Done h' ->
  exists w, written SPLLDIV h' = Some w /\
    (bits w 0 3 = 2 <-> bits (answer c h SPLLDIV) 0 3 = 0 \/ bits (answer c h SPLLDIV) 0 3 = 2) /\
    (bits w 8 3 = 3 <-> bits (answer c h SPLLDIV) 8 3 < 4).
Proof. exact spll_dividers. Qed.
Print Assumptions C102_pll_dividers.
(** If the chip then shows what was configured, the core clock is 80 MHz: *)
Theorem C102_runs_at_80MHz : forall n c h0 h' old, bring_up n c h0 = Done h' -> shows_clock c ->
  exists h2, SystemCoreClockUpdate c h' old = Ret (80000000, h2).
Proof. exact runs_at_80MHz. Qed.
Print Assumptions C102_runs_at_80MHz.
(** An oscillator that never becomes valid is waited for forever. *)
Theorem C102_waits_for_oscillator : forall n c h, (forall h, Z.testbit (answer c h SOSCCSR) 24 = false) ->
  exists h', bring_up n c h = Waiting h'.
Proof.
  intros n c h H. unfold bring_up, WDOG_disable, SOSC_init_8MHz. cbn [and_then write].
  match goal with |- context [poll_while n c SOSCCSR (has LK_MASK) ?x] =>
    destruct (poll_while n c SOSCCSR (has LK_MASK) x) as [h1 | h1] end; cbn [and_then]; [eexists; reflexivity |].
  destruct (poll_never n c SOSCCSR (fun v => negb (has VLD_MASK v)) (h1 ++ [Wr SOSCCSR 1])) as [h2 ->];
    [intro; rewrite has_vld, H; reflexivity |]. eexists. reflexivity.
Qed.
Print Assumptions C102_waits_for_oscillator.
(** A chip that is ready at once once something is enabled. *)
Definition ready_chip : chip := fun h r =>
  match r with
  | SOSCCSR | SPLLCSR => match written r h with Some v => Z.lor (bits v 0 1) 0x1000000 | None => 0 end
  | CSR => match written RCCR h with Some w => w | None => 0 end
  | _ => match written r h with Some v => v | None => 0 end
  end.
Lemma ready_csr : forall x, Z.testbit (Z.lor (bits x 0 1) 0x1000000 mod 2 ^ 32) 23 = false /\
  Z.testbit (Z.lor (bits x 0 1) 0x1000000 mod 2 ^ 32) 24 = true.
Proof.
  intro x. assert (bits x 0 1 = 0 \/ bits x 0 1 = 1) as [-> | ->]; [| split; reflexivity | split; reflexivity].
  pose proof (bits_range x 0 1 ltac:(lia)) as B. change (2 ^ 1) with 2 in B. lia.
Qed.
Example C102_lively_case : lively 1 ready_chip.
Proof.
  constructor.
  - intro h. exists O. split; [lia |]. unfold answer, ready_chip. cbn [reads]. destruct (written SOSCCSR h); [apply ready_csr | reflexivity].
  - intro h. exists O. split; [lia |]. unfold answer, ready_chip. cbn [reads]. destruct (written SPLLCSR h); [apply ready_csr | reflexivity].
  - intros h w W _. exists O. split; [lia |]. unfold answer, ready_chip. cbn [reads]. rewrite W. apply ready_csr.
  - intros h w W _. exists O. split; [lia |]. unfold answer, ready_chip. cbn [reads]. rewrite W. apply ready_csr.
  - intros h w W. exists O. split; [lia |]. unfold answer, ready_chip. cbn [reads]. rewrite W.
    unfold bits. rewrite <- !Z.shiftr_div_pow2, <- !Z.land_ones by lia. rewrite Z.shiftr_land, <- Z.land_assoc. reflexivity.
Qed.
Example C102_dividers_case : keeps ready_chip SPLLDIV 0 /\ exists h, SPLL_init_160MHz 1 ready_chip [] = Done h /\
  written SPLLDIV h = Some 0x302.
Proof.
  split; [intro h; unfold answer, ready_chip; destruct (written SPLLDIV h); reflexivity |].
  eexists. split; vm_compute; reflexivity.
Qed.
Example C102_case : exists h h2, bring_up 1 ready_chip [] = Done h /\ SystemCoreClockUpdate ready_chip h 48000000 = Ret (80000000, h2).
Proof. exists (history (bring_up 1 ready_chip [])). eexists. split; vm_compute; reflexivity. Qed.

(** C103. The line is set to 8 data bits without parity at a rate within one per cent of 115200 baud, given the 8 MHz of the slow
    oscillator (and not to the 9600 baud of the comment in main): *)
Theorem C103_line_settings : forall n c h0 h', bring_up n c h0 = Done h' ->
  exists baud ctrl, written BAUD h' = Some baud /\ written CTRL h' = Some ctrl /\
    (forall b, Z.testbit ctrl b = true <-> b = 18 \/ b = 19) /\
    let divisor := bits baud 0 13 * (bits baud 24 5 + 1) in
    baud = bits baud 0 13 + 2 ^ 24 * bits baud 24 5 /\
    100 * Z.abs (8000000 - 115200 * divisor) <= 115200 * divisor /\ 9600 * divisor < 8000000 / 12.
Proof.
  intros n c h0 h' E. destruct (bring_up_written n c h0 h' E) as (W & _).
  exists 0x16000003, 0xC0000. split; [apply W; cbn; tauto |]. split; [apply W; cbn; tauto |]. split.
  - intro b. split.
    + intro T. destruct (Z_lt_le_dec b 0) as [N | N]; [rewrite Z.testbit_neg_r in T by lia; discriminate |].
      destruct (Z_lt_le_dec b 20) as [N2 | N2].
      * assert (b = 0 \/ b = 1 \/ b = 2 \/ b = 3 \/ b = 4 \/ b = 5 \/ b = 6 \/ b = 7 \/ b = 8 \/ b = 9 \/ b = 10 \/ b = 11 \/ b = 12 \/
                b = 13 \/ b = 14 \/ b = 15 \/ b = 16 \/ b = 17 \/ b = 18 \/ b = 19) as D by lia.
        repeat (destruct D as [-> | D]; [first [discriminate T | auto] |]). subst b. auto.
      * rewrite Z.bits_above_log2 in T; [discriminate | lia |]. change (Z.log2 0xC0000) with 19. lia.
    + intros [-> | ->]; reflexivity.
  - vm_compute. split; [reflexivity |]. split; [discriminate | reflexivity].
Qed.
Print Assumptions C103_line_settings.
(** Full statement: whatever they were configured for, the pins C6 and C7 afterwards belong to the port and the port gets the slow
    oscillator's clock. The code only adds bits: *)
Definition mux_one : chip := fun h r => match written r h with Some v => v | None => 0x100 end.
Theorem C103_any_configuration_refuted : exists c v h' w, keeps c (PCR 6) v /\ PORT_init c [] = Done h' /\
  written (PCR 6) h' = Some w /\ bits w 8 3 <> 2.
Proof.
  exists mux_one, 0x100. eexists _, _.
  split; [| split; [reflexivity | split; [reflexivity | vm_compute; discriminate]]].
  intro h. unfold answer, mux_one. destruct (written (PCR 6) h); reflexivity.
Qed.
Print Assumptions C103_any_configuration_refuted.
(** What they are configured for afterwards, exactly: *)
Theorem C103_pins_partial : forall c h v6 v7, keeps c (PCR 6) v6 -> keeps c (PCR 7) v7 ->
  exists h' w6 w7 g, PORT_init c h = Done h' /\
    written (PCR 6) h' = Some w6 /\ written (PCR 7) h' = Some w7 /\ written (PCCn 75) h' = Some g /\ Z.testbit g 30 = true /\
    (bits w6 8 3 = 2 <-> bits (answer c h (PCR 6)) 8 3 = 0 \/ bits (answer c h (PCR 6)) 8 3 = 2) /\
    (bits w7 8 3 = 2 <-> bits (answer c h (PCR 7)) 8 3 = 0 \/ bits (answer c h (PCR 7)) 8 3 = 2) /\
    same_but w6 (answer c h (PCR 6)) 8 3 /\ same_but w7 (answer c h (PCR 7)) 8 3 /\ same_but g (answer c h (PCCn 75)) 30 1.
Proof. exact port_init_pins. Qed.
Print Assumptions C103_pins_partial.
Theorem C103_clock_source_partial : forall c h v0, keeps c (PCCn 107) v0 ->
  exists h' g, LPUART1_init c h = Done h' /\ written (PCCn 107) h' = Some g /\
    Z.testbit g 30 = true /\
    (bits g 24 3 = 2 <-> bits (answer c h (PCCn 107)) 24 3 = 0 \/ bits (answer c h (PCCn 107)) 24 3 = 2) /\
    (forall b, 0 <= b < 32 -> ~ 24 <= b < 27 -> b <> 30 -> Z.testbit g b = Z.testbit (answer c h (PCCn 107)) b) /\
    written BAUD h' = Some (3 + 22 * 2 ^ 24) /\ written CTRL h' = Some (2 ^ 18 + 2 ^ 19).
Proof. exact uart_init. Qed.
Print Assumptions C103_clock_source_partial.
(** A chip after reset keeps zero in all of them. *)
Example C103_case : keeps ready_chip (PCR 6) 0 /\ keeps ready_chip (PCR 7) 0 /\ keeps ready_chip (PCCn 107) 0 /\
  bits (answer ready_chip [] (PCR 6)) 8 3 = 0 /\ shows_clock ready_chip /\
  exists h, bring_up 1 ready_chip [] = Done h /\ written (PCR 6) h = Some 0x200 /\ written (PCCn 107) h = Some 0x42000000.
Proof.
  split; [intro h; unfold answer, ready_chip; destruct (written (PCR 6) h); reflexivity |].
  split; [intro h; unfold answer, ready_chip; destruct (written (PCR 7) h); reflexivity |].
  split; [intro h; unfold answer, ready_chip; destruct (written (PCCn 107) h); reflexivity |].
  split; [reflexivity |]. split; [split; intros h w W; unfold answer, ready_chip; rewrite W; reflexivity |].
  eexists. split; [vm_compute; reflexivity |]. split; vm_compute; reflexivity.
Qed.

(** C104. The reset request: one read, one write with the key in the upper half, the request bit, and all other bits as read. *)
Theorem C104_reset_request : forall c h, exists v w, SystemSoftwareReset c h = h ++ [Rd AIRCR v; Wr AIRCR w] /\
  bits w 16 16 = 0x05FA /\ Z.testbit w 2 = true /\ (forall b, 0 <= b < 16 -> b <> 2 -> Z.testbit w b = Z.testbit v b) /\
  0 <= w < 2 ^ 32.
Proof. exact software_reset. Qed.
Print Assumptions C104_reset_request.
(** The watchdog is unlocked with the key, at once configured, and disabled (bit 7): by SystemInit such that it can be configured again
    (bit 5), by main such that it cannot. Nothing else is done to it. *)
Definition is_watchdog (x : access) : bool :=
  match x with Rd r _ | Wr r _ => match r with WDOG_CNT | WDOG_TOVAL | WDOG_CS => true | _ => false end end.
Theorem C104_watchdog_disabled : forall fpu c h,
  (exists a v cs, SystemInit fpu c h = Done (h ++ a) /\
     filter is_watchdog a = [Wr WDOG_CNT 0xD928C520; Rd WDOG_CNT v; Wr WDOG_CS cs; Wr WDOG_TOVAL 0xFFFF] /\
     Z.testbit cs 7 = false /\ Z.testbit cs 5 = true /\ Z.testbit cs 13 = true /\ bits cs 8 2 = 1) /\
  (exists cs, WDOG_disable h = Done (h ++ [Wr WDOG_CNT 0xD928C520; Wr WDOG_TOVAL 0xFFFF; Wr WDOG_CS cs]) /\
     Z.testbit cs 7 = false /\ Z.testbit cs 5 = false /\ Z.testbit cs 13 = true /\ bits cs 8 2 = 1).
Proof.
  intros fpu c h. split.
  - unfold SystemInit, update, write. destruct fpu; cbn [and_then];
      repeat match goal with |- context [answer c ?x ?r] => generalize (answer c x r); intro end;
      rewrite <- !app_assoc; cbn [app]; eexists _, _, _; (split; [reflexivity |]); (split; [reflexivity |]); repeat split.
  - exists 0x2100. unfold WDOG_disable, write. cbn [and_then]. rewrite <- !app_assoc. cbn [app]. repeat split.
Qed.
Print Assumptions C104_watchdog_disabled.
(** With the floating point unit, SystemInit grants access to it and switches off lazy stacking, and changes nothing else. *)
Theorem C104_floating_point_enabled : forall c h, exists h' a b, SystemInit true c h = Done h' /\
  written CPACR h' = Some a /\ bits a 20 4 = 15 /\ same_but a (answer c h CPACR) 20 4 /\
  written FPCCR h' = Some b /\ Z.testbit b 30 = false /\ exists v, In (Rd FPCCR v) h' /\ same_but b v 30 1.
Proof.
  intros c h. unfold SystemInit, update. cbn [and_then write]. set (v := answer c h CPACR). set (h1 := h ++ _).
  set (f := answer c h1 FPCCR). eexists _, _, _. split; [reflexivity |]. split; [| split; [| split; [| split; [| split]]]].
  - rewrite !written_wr_other, written_rd, written_wr_other, written_rw_other by discriminate. unfold h1. apply written_rw.
  - rewrite bits_lor by lia. change (bits (Z.lor 0x300000 0xC00000) 20 4) with (Z.ones 4).
    pose proof (bits_range v 20 4 ltac:(lia)) as B. apply Z.lor_ones_low; [lia |].
    destruct (Z.eq_dec (bits v 20 4) 0) as [-> | N]; [reflexivity |]. apply Z.log2_lt_pow2; lia.
  - intros b Hb N. rewrite Z.lor_spec. change (Z.lor 0x300000 0xC00000) with (Z.shiftl (Z.ones 4) 20).
    rewrite Z.shiftl_spec, Z.testbit_ones by lia. destruct (Z.leb_spec 0 (b - 20)), (Z.ltb_spec (b - 20) 4); try lia; apply orb_false_r.
  - rewrite !written_wr_other, written_rd, written_wr_other by discriminate. apply written_rw.
  - rewrite Z.land_spec. change (Z.testbit (compl 0x40000000) 30) with false. apply andb_false_r.
  - exists f. split; [rewrite !in_app_iff; cbn; tauto |]. intros b Hb N. rewrite Z.land_spec.
    destruct (Z_lt_le_dec b 32) as [L | L].
    + assert (Z.testbit (compl 0x40000000) b = true) as ->; [| apply andb_true_r].
      change (compl 0x40000000) with (Z.lxor (Z.ones 32) (2 ^ 30)). rewrite Z.lxor_spec, Z.testbit_ones, Z.pow2_bits_false by lia.
      destruct (Z.leb_spec 0 b), (Z.ltb_spec b 32); try lia; reflexivity.
    + assert (Z.testbit f b = false) as ->; [| reflexivity].
      pose proof (answer_range c h1 FPCCR) as R. fold f in R. destruct (Z.eq_dec f 0) as [-> | N0]; [apply Z.bits_0 |].
      apply Z.bits_above_log2; [lia |]. apply Z.lt_le_trans with 32; [apply Z.log2_lt_pow2; lia | lia].
Qed.
Print Assumptions C104_floating_point_enabled.
Example C104_case : SystemSoftwareReset (fun _ _ => 0xFA050701) [] = [Rd AIRCR 0xFA050701; Wr AIRCR 0x05FA0705] /\
  exists h, SystemInit true (fun _ _ => 0xF0000001) [] = Done h /\ written WDOG_CS h = Some 0x2120 /\ written CPACR h = Some 0xF0F00001 /\
    written FPCCR h = Some 0xB0000001.
Proof. split; [reflexivity |]. eexists. split; [reflexivity |]. split; [reflexivity |]. split; reflexivity. Qed.

(** C105. On the console: both greetings, then what the tests print, then rounds of result and echo. *)
Theorem C105_console : forall rounds fuel dev tr bufs result,
  match console rounds fuel dev tr bufs result with
  | None => ~ (ready_within fuel 21 dev /\ ready_within fuel 23 dev)
  | Some UB => False
  | Some (Ret tr') => exists ds out echo, List.length ds = rounds /\ tr' = tr ++ out ++ echo /\
      sends (line "Running LPUART example" ++ line "Input character to echo..." ++ List.concat bufs) out /\ rounds_of result ds echo
  end.
Proof. exact console_spec. Qed.
Print Assumptions C105_console.
Example C105_case : exists tr, console 2 1 (fun _ stat => if stat then 0xA00000 else 0x141) [] [[79; 75]; []; [10]] 257 = Some (Ret tr) /\
  skipn 104 tr = [RdStat 0xA00000; WrData 79; RdStat 0xA00000; WrData 75; RdStat 0xA00000; WrData 10;
    RdStat 0xA00000; WrData 1; RdStat 0xA00000; RdData 0x141; RdStat 0xA00000; WrData 65; RdStat 0xA00000; WrData 10; RdStat 0xA00000; WrData 13;
    RdStat 0xA00000; WrData 1; RdStat 0xA00000; RdData 0x141; RdStat 0xA00000; WrData 65; RdStat 0xA00000; WrData 10; RdStat 0xA00000; WrData 13].
Proof. eexists. split; vm_compute; reflexivity. Qed.

(** C106. Every link that succeeds gives what the start-up code needs; that is what C90 asks for. *)
Theorem C106_link_is_sound : forall i k, sane_inputs i -> link i = Some k -> sound_layout (symbols k).
Proof. exact link_sound. Qed.
Print Assumptions C106_link_is_sound.
(** A link succeeds exactly if the sizes fit. *)
Theorem C106_link_succeeds_iff : forall i, sane_inputs i ->
  ((exists k, link i = Some k) <-> fits_flash i /\ fits_lower_ram i /\ fits_upper_ram i).
Proof. exact link_iff. Qed.
Print Assumptions C106_link_succeeds_iff.
Theorem C106_linked_program_starts : forall i k m fuel, sane_inputs i -> link i = Some k -> 0x40000 <= Z.of_nat fuel ->
  exists m' vtor, init_data_bss fuel (symbols k) m = Some (m', vtor) /\ vtor = vector_ram (symbols k) /\ initialised (symbols k) m m'.
Proof. exact link_starts_up. Qed.
Print Assumptions C106_linked_program_starts.
(** The sections are where their images get copied to, in RAM, big enough; heap and stack do not meet. *)
Theorem C106_places : forall i k, sane_inputs i -> link i = Some k ->
  let L := symbols k in
  vector_ram L mod 1024 = 0 /\ data_section k = data_ram L /\ code_section k = code_ram L /\
  in_lower_ram (data_ram L) (data_len L) /\ in_lower_ram (code_ram L) (code_len L) /\ in_lower_ram (bss_start L) (bss_len L) /\
  in_upper_ram (heap_base k) (i_heap i) /\ in_upper_ram (stack_limit k) (i_stack i) /\
  custom_end k <= heap_base k /\ heap_base k mod 8 = 0 /\ stack_top k mod 8 = 0 /\
  apart (heap_base k) (i_heap i) (stack_limit k) (i_stack i) /\
  i_data i <= data_len L /\ i_code i <= code_len L /\ i_bss i <= bss_len L.
Proof. exact link_places. Qed.
Print Assumptions C106_places.
(** Full statement: the images of data and code lie in flash. They are not checked against any memory area: *)
Definition ex_inputs : inputs := Inputs 0x400 0x10 0x20001 0x124 0 0x301 0x22 0x1234 8 4 1 0x10 false 0x1D3D8 0x400.
Definition big_inputs : inputs := Inputs 0x400 0x10 0x17FB00 0xF0 0 0x100 0 0x1234 8 4 8 0 false 0x1D3D8 0x400.
Theorem C106_image_in_flash_refuted : exists i k, sane_inputs i /\ link i = Some k /\
  ~ in_flash (data_rom (symbols k)) (data_len (symbols k) + code_len (symbols k)).
Proof.
  assert (sane_inputs big_inputs) as Sa.
  { constructor; cbn; try lia; [exists 3 | exists 2 | exists 3]; split; reflexivity || lia. }
  destruct (link big_inputs) as [k |] eqn:E; [| vm_compute in E; discriminate E].
  exists big_inputs, k. split; [exact Sa |]. split; [exact E |]. apply (link_image_outside _ _ Sa E). vm_compute. reflexivity.
Qed.
Print Assumptions C106_image_in_flash_refuted.
(** They do exactly if the code, the constants and both images, each rounded up to a word, fit together; otherwise the link
    succeeds all the same. *)
Theorem C106_image_in_flash_partial : forall i k t d c, sane_inputs i -> link i = Some k ->
  next_multiple 4 (0x410 + i_text i) t -> next_multiple 4 (i_data i) d -> next_multiple 4 (i_code i) c ->
  (in_flash (data_rom (symbols k)) (data_len (symbols k) + code_len (symbols k)) <-> t + i_rest i + d + c <= 0x180000).
Proof. exact link_image_iff. Qed.
Print Assumptions C106_image_in_flash_partial.
Example C106_case : sane_inputs ex_inputs /\ exists k, link ex_inputs = Some k /\
  symbols k = Layout 0 0x1FFE0000 0x400 0x20538 0x2083C 0x1FFE0400 0x2083C 0x20860 0x1FFE0704 0x1FFE0728 0x1FFE195C /\
  heap_base k = 0x20000010 /\ stack_limit k = 0x2001EC00 /\
  next_multiple 4 (0x410 + i_text ex_inputs) 0x20414 /\ next_multiple 4 (i_data ex_inputs) 0x304 /\ next_multiple 4 (i_code ex_inputs) 0x24.
Proof.
  split; [constructor; cbn; try lia; [exists 3 | exists 2 | exists 0]; split; reflexivity || lia |].
  eexists. split; [vm_compute; reflexivity |]. split; [reflexivity |]. split; [reflexivity |]. split; [reflexivity |].
  unfold next_multiple. cbn [i_text i_data i_code ex_inputs]. repeat split; lia || reflexivity.
Qed.
