(** Proofs about the reset code. *)
From Coq Require Import ZArith Bool List String Lia.
From Verif Require Import Outcome TargetModel TargetSpec TargetProofs BoardModel BoardSpec BoardProofs ResetModel ResetSpec.
Import ListNotations.
Open Scope Z_scope.

Lemma system_init_done : forall fpu c h, exists h', SystemInit fpu c h = Done h'.
Proof. intros [|] c h; eexists; reflexivity. Qed.

(** While interrupts are masked a step only adds to those pending. *)
Lemma steps_S : forall w top n m, steps w top (S n) m = step w top n (steps w top n m).
Proof. reflexivity. Qed.

Lemma step_masked : forall w top t p i c q l, masked c = true -> nth_error (reset_handler top) p = Some i ->
  step w top t (Machine (Some p) c q l) = execute w p i c (q ++ w_requests w t) l.
Proof. intros w top t p i c q l M E. unfold step, take. cbn [state pc pending log]. rewrite M. cbn [state pc pending log]. rewrite E. reflexivity. Qed.

Lemma step_free : forall w top t p i c q l, masked c = false -> nth_error (reset_handler top) p = Some i ->
  step w top t (Machine (Some p) c q l) =
  execute w p i (set_ram (fold_left (fun a n => w_handler w n a) (q ++ w_requests w t) (ram c)) c) []
    (l ++ map Handler (q ++ w_requests w t)).
Proof. intros w top t p i c q l M E. unfold step, take. cbn [state pc pending log]. rewrite M. cbn [state pc pending log]. rewrite E. reflexivity. Qed.

Lemma requested_S : forall w a n, requested w a (S n) = requested w a n ++ w_requests w (a + n).
Proof. intros w a n. unfold requested. rewrite seq_S, map_app, concat_app. cbn [map List.concat]. rewrite app_nil_r. reflexivity. Qed.

Definition handle (w : world) (ns : list Z) (a : memory) : memory := fold_left (fun a n => w_handler w n a) ns a.

Lemma run_masked : forall w top s0 k p i c l, steps w top (S k) s0 = Machine (Some p) c (requested w 1 k) l ->
  masked c = true -> nth_error (reset_handler top) p = Some i ->
  steps w top (S (S k)) s0 = execute w p i c (requested w 1 (S k)) l.
Proof. intros w top s0 k p i c l E M N. rewrite steps_S, E, (step_masked _ _ _ _ i) by assumption. rewrite requested_S. reflexivity. Qed.

Ltac go E := let E' := fresh in
  pose proof (run_masked _ _ _ _ _ _ _ _ E eq_refl eq_refl) as E'; unfold execute, set_mask, set_reg, call in E';
  cbn [regs masked ram accesses vtor Nat.eqb] in E'; clear E; rename E' into E.

(** Up to the first call. *)
Lemma run_16 : forall w top r0 m h v, exists r,
  steps w top 16 (reset_state r0 m h v) =
    Machine (Some 16%nat) (Cpu r true (handle w (w_requests w 0) m) h v) (requested w 1 15) (map Handler (requested w 0 1)) /\
  r 0%nat = Addr F_SystemInit /\ r 13%nat = Num top /\ (forall x, (1 <= x <= 12)%nat -> r x = Num 0).
Proof.
  intros w top r0 m h v. set (s0 := reset_state r0 m h v). set (m0 := handle w (w_requests w 0) m).
  assert (steps w top 1 s0 = Machine (Some 1%nat) (Cpu r0 true m0 h v) (requested w 1 0) (map Handler (requested w 0 1))) as E.
  { rewrite steps_S. cbn [steps]. unfold s0, reset_state. rewrite (step_free w top 0 0 CPSID_I) by reflexivity.
    cbn [app execute set_mask set_ram regs masked ram accesses vtor]. unfold requested. cbn [seq map List.concat]. rewrite app_nil_r. reflexivity. }
  do 15 go E. eexists. split; [exact E |]. split; [reflexivity |]. split; [reflexivity |].
  intros x Hx. do 13 (destruct x as [| x]; [reflexivity || lia |]). lia.
Qed.

Lemma reset_run : forall w top r0 m h v m' vt,
  let m0 := handle w (w_requests w 0) m in
  init_data_bss (w_fuel w) (w_layout w) m0 = Some (m', vt) ->
  exists h' c1 c2 c3 c4 c5,
  SystemInit (w_fpu w) (w_chip w) h = Done h' /\
  steps w top 23 (reset_state r0 m h v) = Machine (if w_main_returns w then Some 23%nat else None) c5 []
    (map Handler (requested w 0 1) ++ [Enter F_SystemInit c1; Enter F_init_data_bss c2; Enter F_libc_init_array c3] ++
     map Handler (requested w 1 22) ++ [Enter F_main c4]) /\
  regs c1 13%nat = Num top /\ regs c2 13%nat = Num top /\ regs c3 13%nat = Num top /\ regs c4 13%nat = Num top /\
  (forall r, (1 <= r <= 12)%nat -> regs c1 r = Num 0) /\
  masked c1 = true /\ masked c2 = true /\ masked c3 = true /\ masked c4 = false /\ masked c5 = false /\
  ram c1 = m0 /\ ram c2 = m0 /\ ram c3 = m' /\ ram c4 = handle w (requested w 1 22) (w_ctors w m') /\
  accesses c1 = h /\ accesses c2 = h' /\ accesses c3 = h' /\ accesses c4 = h' /\
  vtor c3 = vt /\ vtor c4 = vt.
Proof.
  intros w top r0 m h v m' vt m0 In. destruct (run_16 w top r0 m h v) as (r & E & R0 & R13 & Rz).
  set (s0 := reset_state r0 m h v) in *. fold m0 in E.
  destruct (system_init_done (w_fpu w) (w_chip w) h) as [h' D].
  go E. rewrite R0 in E. unfold body in E. cbn [accesses regs masked ram vtor] in E. rewrite D in E. unfold after_call in E. cbn [regs masked ram accesses vtor] in E.
  go E. go E. unfold body in E. cbn [accesses regs masked ram vtor] in E. rewrite In in E. unfold after_call in E. cbn [regs masked ram accesses vtor] in E.
  go E. go E. unfold body, set_ram, after_call in E. cbn [regs masked ram accesses vtor] in E.
  go E.
  pose proof (steps_S w top 22 s0) as F. rewrite E in F. clear E.
  rewrite (step_free _ _ _ _ (BL F_main)) in F by reflexivity. unfold execute, call, body, set_ram in F. cbn [ram regs masked accesses vtor] in F.
  pose proof (requested_S w 1 21) as RS. change (1 + 21)%nat with 22%nat in RS. rewrite <- RS in F. exists h'. do 4 eexists.
  exists (state (steps w top 23 s0)). split; [exact D |]. split.
  { rewrite F. destruct (w_main_returns w); cbn [state]; f_equal; rewrite <- !app_assoc; reflexivity. }
  cbn [regs masked ram accesses vtor]. rewrite F.
  split; [exact R13 |]. split; [cbn; exact R13 |]. split; [cbn; exact R13 |]. split; [cbn; exact R13 |].
  split; [exact Rz |]. do 4 (split; [reflexivity |]). split; [destruct (w_main_returns w); reflexivity |].
  repeat (split; [reflexivity |]). reflexivity.
Qed.

(** Nothing but handlers runs afterwards. *)
Lemma idle_forever : forall w top s0 p c5 l, p = Some 23%nat \/ p = None ->
  steps w top 23 s0 = Machine p c5 [] l -> masked c5 = false ->
  forall n, exists c, steps w top (23 + n) s0 = Machine p c [] (l ++ map Handler (requested w 23 n)) /\ masked c = false.
Proof.
  intros w top s0 p c5 l P E M5. induction n as [| n (c & E1 & M)].
  - exists c5. rewrite Nat.add_0_r. unfold requested. cbn [seq map List.concat]. rewrite app_nil_r. auto.
  - replace (23 + S n)%nat with (S (23 + n)) by lia. rewrite steps_S, E1. unfold step, take. cbn [state pc pending log]. rewrite M.
    cbn [state pc pending log app]. eexists. rewrite (requested_S w 23 n), map_app, app_assoc.
    destruct P as [-> | ->]; cbn [nth_error reset_handler execute]; split; reflexivity || exact M.
Qed.

(** ** The vector table *)

Lemma word_at_copy : forall m m' a b len n, (forall i, 0 <= i < len -> m' (b + i) = m (a + i)) -> 0 <= n -> 4 * n + 4 <= len ->
  word_at m' (b + 4 * n) = word_at m (a + 4 * n).
Proof.
  intros m m' a b len n H N L. unfold word_at. rewrite <- !Z.add_assoc. rewrite !H by lia. reflexivity.
Qed.

Lemma vectors_length : List.length vectors = 256%nat.
Proof. reflexivity. Qed.

Lemma vectors_after_start : forall i k m m' vt fuel strong base, sane_inputs i -> link i = Some k ->
  init_data_bss fuel (symbols k) m = Some (m', vt) -> 0x40000 <= Z.of_nat fuel -> holds_vectors strong base m 0 ->
  holds_vectors strong base m' vt.
Proof.
  intros i k m m' vt fuel strong base Sa E I F H n e N.
  destruct (link_starts_up i k m fuel Sa E F) as (m1 & v1 & I1 & V & In). rewrite I in I1.
  assert (m' = m1 /\ vt = v1) as [<- <-] by (split; congruence). clear I1.
  rewrite <- (H n e N). assert (n < 256)%nat as B by (rewrite <- vectors_length; apply nth_error_Some; congruence).
  destruct In as (I1 & _ & _ & _ & I5). subst vt.
  destruct (link_facts i k Sa E) as (F1 & F2 & F3 & F4 & F5 & F0 & F6 & F7 & F8 & F9 & Fc & F10 & F11 & F12 & F13 & _).
  pose proof (si_data i Sa). pose proof (si_code i Sa). pose proof (si_bss i Sa).
  unfold vector_len in I1. rewrite F1 in *. destruct F2 as [(Fl & R & Z0) | (Fl & R & Z1 & Z2 & Z3)].
  - rewrite R. apply (word_at_copy m m' 0 0 1024); [| lia | lia]. intros j J. rewrite !Z.add_0_l. apply I5; unfold within, vector_len; rewrite ?F1, ?R, ?Z0.
    + cbn. lia.
    + lia.
    + lia.
    + unfold bss_len in *. lia.
  - rewrite R in *. change (0x1FFE0000 =? 0) with false in I1. cbn iota in I1.
    apply (word_at_copy m m' 0 0x1FFE0000 1024); [| lia | lia]. intros j J. apply I1.
    pose proof (Z.div_mod (vector_size (symbols k)) 4 ltac:(lia)). lia.
Qed.

(** Each interrupt's entry is the handler of its name. *)
Lemma irq_entries : Forall (fun x => nth_error vectors (16 + Z.to_nat (snd x)) = Some (Sym (fst x ++ "_IRQHandler"))) irqs.
Proof. repeat (constructor; [reflexivity |]). constructor. Qed.

Lemma irq_weak : Forall (fun x => 0 <= snd x /\ existsb (String.eqb (fst x ++ "_IRQHandler")) weak_handlers = true) irqs.
Proof. repeat (constructor; [split; [cbn; lia | reflexivity] |]). constructor. Qed.
