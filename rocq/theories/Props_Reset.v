(** C119, C120: from reset to main, and the interrupt vectors. *)
From Coq Require Import ZArith Bool List String Lia.
From Verif Require Import Outcome TargetModel TargetSpec TargetProofs BoardModel BoardSpec BoardProofs ResetModel ResetSpec ResetProofs
  Props_Board.
Import ListNotations.
Open Scope Z_scope.

(** C119. Whatever the registers and memory hold after a reset, however the chip answers, whatever the constructors and handlers do and
    whenever interrupts are requested: up to main these functions are entered, in this order, and no handler runs from the first
    instruction on until memory is initialised and the constructors are done. The stack pointer is the linker file's. Afterwards,
    at any time, only handlers have run in addition. *)
Theorem C119_reset_to_main : forall i k w r0 m h v, sane_inputs i -> link i = Some k -> w_layout w = symbols k ->
  0x40000 <= Z.of_nat (w_fuel w) ->
  exists h' c1 c2 c3 c4,
    (forall n, log (steps w (stack_top k) (23 + n) (reset_state r0 m h v)) =
       map Handler (requested w 0 1) ++ [Enter F_SystemInit c1; Enter F_init_data_bss c2; Enter F_libc_init_array c3] ++
       map Handler (requested w 1 22) ++ [Enter F_main c4] ++ map Handler (requested w 23 n)) /\
    Forall (fun c => regs c 13%nat = Num (stack_top k)) [c1; c2; c3; c4] /\
    Forall (fun c => masked c = true) [c1; c2; c3] /\ masked c4 = false /\
    (forall r, (1 <= r <= 12)%nat -> regs c1 r = Num 0) /\
    SystemInit (w_fpu w) (w_chip w) h = Done h' /\ Forall (fun c => accesses c = h') [c2; c3; c4] /\
    initialised (symbols k) (ram c2) (ram c3) /\ vtor c3 = vector_ram (symbols k) /\ vtor c4 = vector_ram (symbols k) /\
    ram c4 = fold_left (fun a n => w_handler w n a) (requested w 1 22) (w_ctors w (ram c3)).
Proof.
  intros i k w r0 m h v Sa E L F. destruct (link_starts_up i k (handle w (w_requests w 0) m) (w_fuel w) Sa E F) as (m' & vt & I & V & In).
  destruct (reset_run w (stack_top k) r0 m h v m' vt) as (h' & c1 & c2 & c3 & c4 & c5 & D & S & P1 & P2 & P3 & P4 & Rz & M1 & M2 & M3 & M4 & M5 & R1 & R2 & R3 & R4 & A1 & A2 & A3 & A4 & V3 & V4).
  { rewrite L. exact I. }
  exists h', c1, c2, c3, c4. split.
  { intros n. assert ((if w_main_returns w then Some 23%nat else None) = Some 23%nat \/ (if w_main_returns w then Some 23%nat else None) = None) as P
      by (destruct (w_main_returns w); auto).
    destruct (idle_forever w (stack_top k) (reset_state r0 m h v) _ c5 _ P S M5 n) as (c & T & _).
    rewrite T. cbn [log]. rewrite <- !app_assoc. reflexivity. }
  split; [repeat constructor; assumption |]. split; [repeat constructor; assumption |]. split; [exact M4 |]. split; [exact Rz |].
  split; [exact D |]. split; [repeat constructor; assumption |]. split; [rewrite R2, R3; exact In |].
  split; [congruence |]. split; [congruence |]. rewrite R4, R3. reflexivity.
Qed.
Print Assumptions C119_reset_to_main.
(** main is entered with the memory that the constructors leave if no interrupt was requested meanwhile. *)
Theorem C119_quiet_reset : forall i k w r0 m h v, sane_inputs i -> link i = Some k -> w_layout w = symbols k ->
  0x40000 <= Z.of_nat (w_fuel w) -> (forall t, (t < 23)%nat -> w_requests w t = []) ->
  exists m' c1 c2 c3 c4, initialised (symbols k) m m' /\ ram c4 = w_ctors w m' /\
    log (steps w (stack_top k) 23 (reset_state r0 m h v)) =
      [Enter F_SystemInit c1; Enter F_init_data_bss c2; Enter F_libc_init_array c3; Enter F_main c4].
Proof.
  intros i k w r0 m h v Sa E L F Q. destruct (link_starts_up i k m (w_fuel w) Sa E F) as (m' & vt & I & V & In).
  assert (forall a n, (a + n <= 23)%nat -> requested w a n = []) as RQ.
  { intros a n. revert a. induction n as [| n IH]; intros a B; [reflexivity |].
    rewrite requested_S, IH, Q by lia. reflexivity. }
  destruct (reset_run w (stack_top k) r0 m h v m' vt) as (h' & c1 & c2 & c3 & c4 & c5 & D & S & P1 & P2 & P3 & P4 & Rz & M1 & M2 & M3 & M4 & M5 & R1 & R2 & R3 & R4 & _).
  { rewrite L, (Q 0%nat) by lia. exact I. }
  exists m', c1, c2, c3, c4. split; [exact In |]. rewrite R4, (RQ 1%nat 22%nat), S, (RQ 0%nat 1%nat), (RQ 1%nat 22%nat) by lia. split; reflexivity.
Qed.
Print Assumptions C119_quiet_reset.
(** An interrupt is requested while memory is initialised; its handler runs before main. *)
Definition ex_linked : option linked := link ex_inputs.
Definition ex_world (k : linked) : world :=
  WorldOf false (fun _ _ => 0) (Z.to_nat 0x40000) (symbols k) (fun m => m) true (fun _ _ => Num 99)
    (fun t => if (t =? 18)%nat then [31] else []) (fun _ m => m).
Example C119_case : exists k, link ex_inputs = Some k /\ w_layout (ex_world k) = symbols k /\ requested (ex_world k) 1 22 = [31] /\
  requested (ex_world k) 0 1 = [] /\ stack_top k = 0x2001F000.
Proof.
  destruct C106_case as [_ (k & E & _)]. exists k. split; [exact E |]. split; [reflexivity |]. split; [reflexivity |].
  split; [reflexivity |]. vm_compute in E. assert (forall a b : linked, Some a = Some b -> a = b) as X by congruence. apply X in E. rewrite <- E. reflexivity.
Qed.

(** C120. The table is where the core looks for it, before and after the start-up code: the words at the table register are those of
    the table in flash. *)
Theorem C120_vectors_after_start : forall i k m m' vt fuel strong base, sane_inputs i -> link i = Some k ->
  init_data_bss fuel (symbols k) m = Some (m', vt) -> 0x40000 <= Z.of_nat fuel -> holds_vectors strong base m 0 ->
  holds_vectors strong base m' vt.
Proof. exact vectors_after_start. Qed.
Print Assumptions C120_vectors_after_start.
(** The interrupt called NAME_IRQn in the header gets the program's NAME_IRQHandler if there is one, and the endless loop if not. *)
Theorem C120_named_handler : forall strong base m a name n, holds_vectors strong base m a -> In (name, n) irqs ->
  word_at m (a + 4 * (16 + n)) =
    match strong (name ++ "_IRQHandler")%string with Some f => f | None => base "DefaultISR"%string end.
Proof.
  intros strong base m a name n H I. pose proof (proj1 (Forall_forall _ _) irq_entries _ I) as E.
  destruct (proj1 (Forall_forall _ _) irq_weak _ I) as [P W]. cbn [fst snd] in E, P, W. specialize (H _ _ E).
  rewrite Nat2Z.inj_add, Z2Nat.id in H by exact P. change (Z.of_nat 16) with 16 in H. rewrite H. unfold entry_word, resolve. rewrite W. reflexivity.
Qed.
Print Assumptions C120_named_handler.
(** The core takes its first stack pointer and its first instruction from the table. *)
Theorem C120_reset_vector : forall strong base m, holds_vectors strong base m 0 ->
  word_at m 0 = base "__StackTop"%string /\ word_at m 4 = base "Reset_Handler"%string.
Proof. intros strong base m H. split; [apply (H 0%nat (Sym "__StackTop")) | apply (H 1%nat (Sym "Reset_Handler"))]; reflexivity. Qed.
Print Assumptions C120_reset_vector.
(** The exceptions of the core (ARMv7-M Architecture Reference Manual, B1.5.2), and zero where the core has none. *)
Theorem C120_core_exceptions : forall strong base m a, holds_vectors strong base m a ->
  (forall name n, In (name, n) [("NMI", 2); ("HardFault", 3); ("MemManage", 4); ("BusFault", 5); ("UsageFault", 6); ("SVC", 11);
     ("DebugMon", 12); ("PendSV", 14); ("SysTick", 15)]%string ->
     word_at m (a + 4 * n) = match strong (name ++ "_Handler")%string with Some f => f | None => base "DefaultISR"%string end) /\
  (forall n, In n [7; 8; 9; 10; 13] -> word_at m (a + 4 * n) = 0) /\
  word_at m (a + 4 * 255) = 0xFFFFFFFF.
Proof.
  intros strong base m a H. split; [|split].
  - intros name n I. cbn [In] in I. decompose [or] I; clear I; try contradiction;
      match goal with E : (_, _) = (_, _) |- _ => injection E as <- <- end.
    1: apply (H 2%nat (Sym "NMI_Handler")). 2: apply (H 3%nat (Sym "HardFault_Handler")). 3: apply (H 4%nat (Sym "MemManage_Handler")).
    4: apply (H 5%nat (Sym "BusFault_Handler")). 5: apply (H 6%nat (Sym "UsageFault_Handler")). 6: apply (H 11%nat (Sym "SVC_Handler")).
    7: apply (H 12%nat (Sym "DebugMon_Handler")). 8: apply (H 14%nat (Sym "PendSV_Handler")). 9: apply (H 15%nat (Sym "SysTick_Handler")).
    all: reflexivity.
  - intros n I. cbn [In] in I. decompose [or] I; clear I; try contradiction; subst n.
    1: apply (H 7%nat (Word 0)). 2: apply (H 8%nat (Word 0)). 3: apply (H 9%nat (Word 0)). 4: apply (H 10%nat (Word 0)). 5: apply (H 13%nat (Word 0)).
    all: reflexivity.
  - apply (H 255%nat (Word 0xFFFFFFFF)). reflexivity.
Qed.
Print Assumptions C120_core_exceptions.
(** The table exactly fills its place in flash. Every name in it is the stack's, the reset handler's, or that of a handler that is the
    endless loop unless the program defines it; no name of the latter kind occurs twice or is missing. *)
Theorem C120_table_complete : 4 * Z.of_nat (List.length vectors) = 0x400 /\
  (forall name, In (Sym name) vectors -> In name ["__StackTop"; "Reset_Handler"; "DefaultISR"]%string \/ In name weak_handlers) /\
  (forall name, In name weak_handlers -> count_occ entry_dec vectors (Sym name) = 1%nat).
Proof.
  split; [reflexivity |]. split.
  - intros name H. assert (forallb (fun e => match e with
        | Sym s => existsb (String.eqb s) ["__StackTop"; "Reset_Handler"; "DefaultISR"]%string || existsb (String.eqb s) weak_handlers
        | Word _ => true end) vectors = true) as A by (vm_compute; reflexivity).
    rewrite forallb_forall in A. specialize (A _ H). cbv beta iota in A. apply orb_true_iff in A.
    destruct A as [A | A]; [left | right]; apply existsb_exists in A; destruct A as (x & I & X); apply String.eqb_eq in X; subst; exact I.
  - intros name H. assert (forallb (fun s => (count_occ entry_dec vectors (Sym s) =? 1)%nat) weak_handlers = true) as A by (vm_compute; reflexivity).
    rewrite forallb_forall in A. apply Nat.eqb_eq, A, H.
Qed.
Print Assumptions C120_table_complete.
Definition ex_base (s : string) : Z :=
  if String.eqb s "__StackTop" then 0x2001F000 else if String.eqb s "Reset_Handler" then 0x411 else 0x501.
Definition ex_strong (s : string) : option Z := if String.eqb s "LPUART1_RxTx_IRQHandler" then Some 0x601 else None.
Definition ex_flash : memory := fun a =>
  entry_word ex_strong ex_base (nth (Z.to_nat (a / 4)) vectors (Word 0)) / 2 ^ (8 * (a mod 4)) mod 256.
Example C120_case : holds_vectors ex_strong ex_base ex_flash 0 /\ In ("LPUART1_RxTx"%string, 33) irqs /\
  word_at ex_flash (4 * (16 + 33)) = 0x601 /\ word_at ex_flash (4 * (16 + 0)) = 0x501 /\ word_at ex_flash 0 = 0x2001F000.
Proof.
  split; [| split; [cbn; tauto |]; vm_compute; auto].
  intros n e E. assert (n < 256)%nat as B by (rewrite <- vectors_length; apply nth_error_Some; congruence).
  assert (forallb (fun n => match nth_error vectors n with
      | Some e => word_at ex_flash (0 + 4 * Z.of_nat n) =? entry_word ex_strong ex_base e | None => false end) (seq 0 256) = true) as A
    by (vm_compute; reflexivity).
  rewrite forallb_forall in A. specialize (A n ltac:(apply in_seq; lia)). rewrite E in A. apply Z.eqb_eq in A. exact A.
Qed.
