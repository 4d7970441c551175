(** Model of the reset code of the evaluation board, test/ontarget/S32K148EVB/Project_Settings/Startup_Code/startup_S32K148.S, and of
    the interrupt numbers in test/ontarget/S32K148EVB/include/S32K148.h. *)
From Coq Require Import ZArith Bool List String.
From Verif Require Import Outcome TargetModel BoardModel.
Import ListNotations.
Open Scope list_scope.
Open Scope Z_scope.

(** ** Reset_Handler *)

(** The functions it calls. startup_S32K148.S lines 336-349. *)
Inductive fn : Type := F_SystemInit | F_init_data_bss | F_libc_init_array | F_main.

(** What a register holds: a number or the address of one of these functions. startup_S32K148.S lines 317-345. *)
Inductive value : Type := Num (z : Z) | Addr (f : fn).

(** The instructions of startup_S32K148.S lines 313-351. The pseudo-instruction [ldr r,=x] loads a constant. *)
Inductive instr : Type :=
| CPSID_I | CPSIE_I                   (* mask and unmask interrupts *)
| LDR (r : nat) (v : value)
| MOV (d s : nat)
| BLX (r : nat)
| BL (f : fn)
| B_SELF.

(** startup_S32K148.S lines 313-351, with [top] for __StackTop. __NO_SYSTEM_INIT is not defined. *)
Definition reset_handler (top : Z) : list instr :=
  [ CPSID_I;
    LDR 1 (Num 0); LDR 2 (Num 0); LDR 3 (Num 0); LDR 4 (Num 0); LDR 5 (Num 0); LDR 6 (Num 0); LDR 7 (Num 0);
    MOV 8 7; MOV 9 7; MOV 10 7; MOV 11 7; MOV 12 7;
    LDR 0 (Num top); MOV 13 0;
    LDR 0 (Addr F_SystemInit); BLX 0;
    LDR 0 (Addr F_init_data_bss); BLX 0;
    LDR 0 (Addr F_libc_init_array); BLX 0;
    CPSIE_I;
    BL F_main;
    B_SELF ].

(** The processor and what it acts on. Register 13 is the stack pointer, 14 the link register. [masked] is PRIMASK.
    What startup_S32K148.S lines 313-351 act on. *)
Record cpu : Type := Cpu {
  regs : nat -> value; masked : bool; ram : memory; accesses : list access; vtor : Z }.
(** What can be observed: a function is entered, in this state; an interrupt handler runs.
    The calls of startup_S32K148.S lines 337-349, the handlers of lines 35-292. *)
Inductive event : Type := Enter (f : fn) (c : cpu) | Handler (n : Z).
(** [pc] counts instructions of Reset_Handler; it is [None] in a called function that never returns. [pending] are the interrupts
    requested and not yet taken. startup_S32K148.S lines 313-351. *)
Record machine : Type := Machine { pc : option nat; state : cpu; pending : list Z; log : list event }.

(** The surroundings, all arbitrary: the chip, whether the compiler targets the floating point unit, the static constructors, whether
    main returns, what a call leaves in the registers it need not preserve, the interrupts requested during each instruction (calls
    included), and what their handlers do to memory. Around startup_S32K148.S lines 313-351. *)
Record world : Type := WorldOf {
  w_fpu : bool; w_chip : chip; w_fuel : nat; w_layout : layout; w_ctors : memory -> memory; w_main_returns : bool;
  w_clobber : fn -> nat -> value; w_requests : nat -> list Z; w_handler : Z -> memory -> memory }.

(** The effect of startup_S32K148.S lines 317-345. *)
Definition set_reg (r : nat) (v : value) (c : cpu) : cpu :=
  Cpu (fun x => if (x =? r)%nat then v else regs c x) (masked c) (ram c) (accesses c) (vtor c).
(** The effect of startup_S32K148.S lines 314 and 348. *)
Definition set_mask (b : bool) (c : cpu) : cpu := Cpu (regs c) b (ram c) (accesses c) (vtor c).
(** The effect of startup_S32K148.S lines 342 and 346. *)
Definition set_ram (m : memory) (c : cpu) : cpu := Cpu (regs c) (masked c) m (accesses c) (vtor c).

(** A call leaves registers 4 to 11 and 13 as they were (procedure call standard).
    At startup_S32K148.S lines 337, 342, 346 and 349. *)
Definition after_call (w : world) (f : fn) (c : cpu) : cpu :=
  Cpu (fun x => if ((4 <=? x) && (x <=? 11) || (x =? 13))%nat then regs c x else w_clobber w f x)
      (masked c) (ram c) (accesses c) (vtor c).

(** The body of a called function: the state when it returns, or [None] if it does not. Their use of the stack is left out.
    The functions called at startup_S32K148.S lines 337, 342, 346 and 349; system_S32K148.c and startup.c have the first two. *)
Definition body (w : world) (f : fn) (c : cpu) : option cpu :=
  match f with
  | F_SystemInit =>
      match SystemInit (w_fpu w) (w_chip w) (accesses c) with
      | Done h => Some (Cpu (regs c) (masked c) (ram c) h (vtor c))
      | Waiting _ => None
      end
  | F_init_data_bss =>
      match init_data_bss (w_fuel w) (w_layout w) (ram c) with
      | Some (m, v) => Some (Cpu (regs c) (masked c) m (accesses c) v)
      | None => None
      end
  | F_libc_init_array => Some (set_ram (w_ctors w (ram c)) c)
  | F_main => if w_main_returns w then Some c else None
  end.

(** startup_S32K148.S lines 337, 342, 346 and 349. *)
Definition call (w : world) (f : fn) (p : nat) (c : cpu) (q : list Z) (l : list event) : machine :=
  match body w f c with
  | Some c' => Machine (Some (S p)) (after_call w f c') q (l ++ [Enter f c])
  | None => Machine None c q (l ++ [Enter f c])
  end.

(** One instruction. Jumping to a number is left out: it does not happen. Of startup_S32K148.S lines 313-351. *)
Definition execute (w : world) (p : nat) (i : instr) (c : cpu) (q : list Z) (l : list event) : machine :=
  match i with
  | CPSID_I => Machine (Some (S p)) (set_mask true c) q l
  | CPSIE_I => Machine (Some (S p)) (set_mask false c) q l
  | LDR r v => Machine (Some (S p)) (set_reg r v c) q l
  | MOV d s => Machine (Some (S p)) (set_reg d (regs c s) c) q l
  | BLX r => match regs c r with Addr f => call w f p c q l | Num _ => Machine None c q l end
  | BL f => call w f p c q l
  | B_SELF => Machine (Some p) c q l
  end.

(** Requested interrupts are taken, in order, unless they are masked. Around the instructions of startup_S32K148.S lines 314-351. *)
Definition take (w : world) (m : machine) : machine :=
  if masked (state m) then m
  else Machine (pc m) (set_ram (fold_left (fun a n => w_handler w n a) (pending m) (ram (state m))) (state m)) []
         (log m ++ map Handler (pending m)).

(** The [t]-th step: first the interrupts, then an instruction. Interrupts requested while a function runs are taken at a step after it
    was entered. Of startup_S32K148.S lines 313-351. *)
Definition step (w : world) (top : Z) (t : nat) (m : machine) : machine :=
  let m := take w (Machine (pc m) (state m) (pending m ++ w_requests w t) (log m)) in
  match pc m with
  | None => m
  | Some p => match nth_error (reset_handler top) p with
              | Some i => execute w p i (state m) (pending m) (log m)
              | None => m
              end
  end.
(** The first [n] steps of startup_S32K148.S lines 313-351. *)
Fixpoint steps (w : world) (top : Z) (n : nat) (m : machine) : machine :=
  match n with O => m | S k => step w top k (steps w top k m) end.

(** After a reset interrupts are not masked; everything else is arbitrary. Where startup_S32K148.S line 313 begins. *)
Definition reset_state (r : nat -> value) (m : memory) (h : list access) (v : Z) : machine :=
  Machine (Some O) (Cpu r false m h v) [] [].

(** ** The vector table *)

(** A word of the vector table, startup_S32K148.S lines 35-292. *)
Inductive entry : Type := Sym (name : string) | Word (w : Z).

(** startup_S32K148.S lines 35-292. *)
Definition vectors : list entry :=
 ([
   Sym "__StackTop"; Sym "Reset_Handler"; Sym "NMI_Handler"; Sym "HardFault_Handler"; Sym "MemManage_Handler";
   Sym "BusFault_Handler"; Sym "UsageFault_Handler"; Word 0; Word 0; Word 0; Word 0; Sym "SVC_Handler";
   Sym "DebugMon_Handler"; Word 0; Sym "PendSV_Handler"; Sym "SysTick_Handler"; Sym "DMA0_IRQHandler"; Sym "DMA1_IRQHandler";
   Sym "DMA2_IRQHandler"; Sym "DMA3_IRQHandler"; Sym "DMA4_IRQHandler"; Sym "DMA5_IRQHandler"; Sym "DMA6_IRQHandler";
   Sym "DMA7_IRQHandler"; Sym "DMA8_IRQHandler"; Sym "DMA9_IRQHandler"; Sym "DMA10_IRQHandler"; Sym "DMA11_IRQHandler";
   Sym "DMA12_IRQHandler"; Sym "DMA13_IRQHandler"; Sym "DMA14_IRQHandler"; Sym "DMA15_IRQHandler";
   Sym "DMA_Error_IRQHandler"; Sym "MCM_IRQHandler"; Sym "FTFC_IRQHandler"; Sym "Read_Collision_IRQHandler";
   Sym "LVD_LVW_IRQHandler"; Sym "FTFC_Fault_IRQHandler"; Sym "WDOG_EWM_IRQHandler"; Sym "RCM_IRQHandler";
   Sym "LPI2C0_Master_IRQHandler"; Sym "LPI2C0_Slave_IRQHandler"; Sym "LPSPI0_IRQHandler"; Sym "LPSPI1_IRQHandler";
   Sym "LPSPI2_IRQHandler"; Sym "LPI2C1_Master_IRQHandler"; Sym "LPI2C1_Slave_IRQHandler"; Sym "LPUART0_RxTx_IRQHandler";
   Sym "Reserved48_IRQHandler"; Sym "LPUART1_RxTx_IRQHandler"; Sym "Reserved50_IRQHandler"; Sym "LPUART2_RxTx_IRQHandler";
   Sym "Reserved52_IRQHandler"; Sym "Reserved53_IRQHandler"; Sym "Reserved54_IRQHandler"; Sym "ADC0_IRQHandler";
   Sym "ADC1_IRQHandler"; Sym "CMP0_IRQHandler"; Sym "Reserved58_IRQHandler"; Sym "Reserved59_IRQHandler";
   Sym "ERM_single_fault_IRQHandler"; Sym "ERM_double_fault_IRQHandler"; Sym "RTC_IRQHandler"; Sym "RTC_Seconds_IRQHandler";
   Sym "LPIT0_Ch0_IRQHandler"; Sym "LPIT0_Ch1_IRQHandler"; Sym "LPIT0_Ch2_IRQHandler"; Sym "LPIT0_Ch3_IRQHandler";
   Sym "PDB0_IRQHandler"; Sym "Reserved69_IRQHandler"; Sym "Reserved70_IRQHandler"; Sym "SAI1_Tx_IRQHandler";
   Sym "SAI1_Rx_IRQHandler"; Sym "SCG_IRQHandler"; Sym "LPTMR0_IRQHandler"; Sym "PORTA_IRQHandler"; Sym "PORTB_IRQHandler";
   Sym "PORTC_IRQHandler"; Sym "PORTD_IRQHandler"; Sym "PORTE_IRQHandler"; Sym "SWI_IRQHandler"; Sym "QSPI_IRQHandler";
   Sym "Reserved82_IRQHandler"; Sym "Reserved83_IRQHandler"; Sym "PDB1_IRQHandler"; Sym "FLEXIO_IRQHandler";
   Sym "SAI0_Tx_IRQHandler"; Sym "SAI0_Rx_IRQHandler"; Sym "ENET_TIMER_IRQHandler"; Sym "ENET_TX_IRQHandler";
   Sym "ENET_RX_IRQHandler"; Sym "ENET_ERR_IRQHandler"; Sym "ENET_STOP_IRQHandler"; Sym "ENET_WAKE_IRQHandler";
   Sym "CAN0_ORed_IRQHandler"; Sym "CAN0_Error_IRQHandler"; Sym "CAN0_Wake_Up_IRQHandler";
   Sym "CAN0_ORed_0_15_MB_IRQHandler"; Sym "CAN0_ORed_16_31_MB_IRQHandler"; Sym "Reserved99_IRQHandler";
   Sym "Reserved100_IRQHandler"; Sym "CAN1_ORed_IRQHandler"; Sym "CAN1_Error_IRQHandler"; Sym "Reserved103_IRQHandler";
   Sym "CAN1_ORed_0_15_MB_IRQHandler"; Sym "CAN1_ORed_16_31_MB_IRQHandler"; Sym "Reserved106_IRQHandler";
   Sym "Reserved107_IRQHandler"; Sym "CAN2_ORed_IRQHandler"; Sym "CAN2_Error_IRQHandler"; Sym "Reserved110_IRQHandler";
   Sym "CAN2_ORed_0_15_MB_IRQHandler"; Sym "CAN2_ORed_16_31_MB_IRQHandler"; Sym "Reserved113_IRQHandler";
   Sym "Reserved114_IRQHandler"; Sym "FTM0_Ch0_Ch1_IRQHandler"; Sym "FTM0_Ch2_Ch3_IRQHandler"; Sym "FTM0_Ch4_Ch5_IRQHandler";
   Sym "FTM0_Ch6_Ch7_IRQHandler"; Sym "FTM0_Fault_IRQHandler"; Sym "FTM0_Ovf_Reload_IRQHandler";
   Sym "FTM1_Ch0_Ch1_IRQHandler"; Sym "FTM1_Ch2_Ch3_IRQHandler"; Sym "FTM1_Ch4_Ch5_IRQHandler";
   Sym "FTM1_Ch6_Ch7_IRQHandler"; Sym "FTM1_Fault_IRQHandler"; Sym "FTM1_Ovf_Reload_IRQHandler";
   Sym "FTM2_Ch0_Ch1_IRQHandler"; Sym "FTM2_Ch2_Ch3_IRQHandler"; Sym "FTM2_Ch4_Ch5_IRQHandler";
   Sym "FTM2_Ch6_Ch7_IRQHandler"; Sym "FTM2_Fault_IRQHandler"; Sym "FTM2_Ovf_Reload_IRQHandler";
   Sym "FTM3_Ch0_Ch1_IRQHandler"; Sym "FTM3_Ch2_Ch3_IRQHandler"; Sym "FTM3_Ch4_Ch5_IRQHandler";
   Sym "FTM3_Ch6_Ch7_IRQHandler"; Sym "FTM3_Fault_IRQHandler"; Sym "FTM3_Ovf_Reload_IRQHandler";
   Sym "FTM4_Ch0_Ch1_IRQHandler"; Sym "FTM4_Ch2_Ch3_IRQHandler"; Sym "FTM4_Ch4_Ch5_IRQHandler";
   Sym "FTM4_Ch6_Ch7_IRQHandler"; Sym "FTM4_Fault_IRQHandler"; Sym "FTM4_Ovf_Reload_IRQHandler";
   Sym "FTM5_Ch0_Ch1_IRQHandler"; Sym "FTM5_Ch2_Ch3_IRQHandler"; Sym "FTM5_Ch4_Ch5_IRQHandler";
   Sym "FTM5_Ch6_Ch7_IRQHandler"; Sym "FTM5_Fault_IRQHandler"; Sym "FTM5_Ovf_Reload_IRQHandler";
   Sym "FTM6_Ch0_Ch1_IRQHandler"; Sym "FTM6_Ch2_Ch3_IRQHandler"; Sym "FTM6_Ch4_Ch5_IRQHandler";
   Sym "FTM6_Ch6_Ch7_IRQHandler"; Sym "FTM6_Fault_IRQHandler"; Sym "FTM6_Ovf_Reload_IRQHandler";
   Sym "FTM7_Ch0_Ch1_IRQHandler"; Sym "FTM7_Ch2_Ch3_IRQHandler"; Sym "FTM7_Ch4_Ch5_IRQHandler";
   Sym "FTM7_Ch6_Ch7_IRQHandler"; Sym "FTM7_Fault_IRQHandler"; Sym "FTM7_Ovf_Reload_IRQHandler"
  ]%string ++ repeat (Sym "DefaultISR"%string) 92 ++ [Word 0xFFFFFFFF])%list.

(** startup_S32K148.S lines 367-528: the names that stand for DefaultISR unless the program defines them. *)
Definition weak_handlers : list string :=
 ([
   "NMI_Handler"; "HardFault_Handler"; "MemManage_Handler"; "BusFault_Handler"; "UsageFault_Handler"; "SVC_Handler";
   "DebugMon_Handler"; "PendSV_Handler"; "SysTick_Handler"; "DMA0_IRQHandler"; "DMA1_IRQHandler"; "DMA2_IRQHandler";
   "DMA3_IRQHandler"; "DMA4_IRQHandler"; "DMA5_IRQHandler"; "DMA6_IRQHandler"; "DMA7_IRQHandler"; "DMA8_IRQHandler";
   "DMA9_IRQHandler"; "DMA10_IRQHandler"; "DMA11_IRQHandler"; "DMA12_IRQHandler"; "DMA13_IRQHandler"; "DMA14_IRQHandler";
   "DMA15_IRQHandler"; "DMA_Error_IRQHandler"; "MCM_IRQHandler"; "FTFC_IRQHandler"; "Read_Collision_IRQHandler";
   "LVD_LVW_IRQHandler"; "FTFC_Fault_IRQHandler"; "WDOG_EWM_IRQHandler"; "RCM_IRQHandler"; "LPI2C0_Master_IRQHandler";
   "LPI2C0_Slave_IRQHandler"; "LPSPI0_IRQHandler"; "LPSPI1_IRQHandler"; "LPSPI2_IRQHandler"; "LPI2C1_Master_IRQHandler";
   "LPI2C1_Slave_IRQHandler"; "LPUART0_RxTx_IRQHandler"; "Reserved48_IRQHandler"; "LPUART1_RxTx_IRQHandler";
   "Reserved50_IRQHandler"; "LPUART2_RxTx_IRQHandler"; "Reserved52_IRQHandler"; "Reserved53_IRQHandler";
   "Reserved54_IRQHandler"; "ADC0_IRQHandler"; "ADC1_IRQHandler"; "CMP0_IRQHandler"; "Reserved58_IRQHandler";
   "Reserved59_IRQHandler"; "ERM_single_fault_IRQHandler"; "ERM_double_fault_IRQHandler"; "RTC_IRQHandler";
   "RTC_Seconds_IRQHandler"; "LPIT0_Ch0_IRQHandler"; "LPIT0_Ch1_IRQHandler"; "LPIT0_Ch2_IRQHandler"; "LPIT0_Ch3_IRQHandler";
   "PDB0_IRQHandler"; "Reserved69_IRQHandler"; "Reserved70_IRQHandler"; "SAI1_Tx_IRQHandler"; "SAI1_Rx_IRQHandler";
   "SCG_IRQHandler"; "LPTMR0_IRQHandler"; "PORTA_IRQHandler"; "PORTB_IRQHandler"; "PORTC_IRQHandler"; "PORTD_IRQHandler";
   "PORTE_IRQHandler"; "SWI_IRQHandler"; "QSPI_IRQHandler"; "Reserved82_IRQHandler"; "Reserved83_IRQHandler";
   "PDB1_IRQHandler"; "FLEXIO_IRQHandler"; "SAI0_Tx_IRQHandler"; "SAI0_Rx_IRQHandler"; "ENET_TIMER_IRQHandler";
   "ENET_TX_IRQHandler"; "ENET_RX_IRQHandler"; "ENET_ERR_IRQHandler"; "ENET_STOP_IRQHandler"; "ENET_WAKE_IRQHandler";
   "CAN0_ORed_IRQHandler"; "CAN0_Error_IRQHandler"; "CAN0_Wake_Up_IRQHandler"; "CAN0_ORed_0_15_MB_IRQHandler";
   "CAN0_ORed_16_31_MB_IRQHandler"; "Reserved99_IRQHandler"; "Reserved100_IRQHandler"; "CAN1_ORed_IRQHandler";
   "CAN1_Error_IRQHandler"; "Reserved103_IRQHandler"; "CAN1_ORed_0_15_MB_IRQHandler"; "CAN1_ORed_16_31_MB_IRQHandler";
   "Reserved106_IRQHandler"; "Reserved107_IRQHandler"; "CAN2_ORed_IRQHandler"; "CAN2_Error_IRQHandler";
   "Reserved110_IRQHandler"; "CAN2_ORed_0_15_MB_IRQHandler"; "CAN2_ORed_16_31_MB_IRQHandler"; "Reserved113_IRQHandler";
   "Reserved114_IRQHandler"; "FTM0_Ch0_Ch1_IRQHandler"; "FTM0_Ch2_Ch3_IRQHandler"; "FTM0_Ch4_Ch5_IRQHandler";
   "FTM0_Ch6_Ch7_IRQHandler"; "FTM0_Fault_IRQHandler"; "FTM0_Ovf_Reload_IRQHandler"; "FTM1_Ch0_Ch1_IRQHandler";
   "FTM1_Ch2_Ch3_IRQHandler"; "FTM1_Ch4_Ch5_IRQHandler"; "FTM1_Ch6_Ch7_IRQHandler"; "FTM1_Fault_IRQHandler";
   "FTM1_Ovf_Reload_IRQHandler"; "FTM2_Ch0_Ch1_IRQHandler"; "FTM2_Ch2_Ch3_IRQHandler"; "FTM2_Ch4_Ch5_IRQHandler";
   "FTM2_Ch6_Ch7_IRQHandler"; "FTM2_Fault_IRQHandler"; "FTM2_Ovf_Reload_IRQHandler"; "FTM3_Ch0_Ch1_IRQHandler";
   "FTM3_Ch2_Ch3_IRQHandler"; "FTM3_Ch4_Ch5_IRQHandler"; "FTM3_Ch6_Ch7_IRQHandler"; "FTM3_Fault_IRQHandler";
   "FTM3_Ovf_Reload_IRQHandler"; "FTM4_Ch0_Ch1_IRQHandler"; "FTM4_Ch2_Ch3_IRQHandler"; "FTM4_Ch4_Ch5_IRQHandler";
   "FTM4_Ch6_Ch7_IRQHandler"; "FTM4_Fault_IRQHandler"; "FTM4_Ovf_Reload_IRQHandler"; "FTM5_Ch0_Ch1_IRQHandler";
   "FTM5_Ch2_Ch3_IRQHandler"; "FTM5_Ch4_Ch5_IRQHandler"; "FTM5_Ch6_Ch7_IRQHandler"; "FTM5_Fault_IRQHandler";
   "FTM5_Ovf_Reload_IRQHandler"; "FTM6_Ch0_Ch1_IRQHandler"; "FTM6_Ch2_Ch3_IRQHandler"; "FTM6_Ch4_Ch5_IRQHandler";
   "FTM6_Ch6_Ch7_IRQHandler"; "FTM6_Fault_IRQHandler"; "FTM6_Ovf_Reload_IRQHandler"; "FTM7_Ch0_Ch1_IRQHandler";
   "FTM7_Ch2_Ch3_IRQHandler"; "FTM7_Ch4_Ch5_IRQHandler"; "FTM7_Ch6_Ch7_IRQHandler"; "FTM7_Fault_IRQHandler";
   "FTM7_Ovf_Reload_IRQHandler"
  ])%string.

(** S32K148.h lines 208-336: the device's interrupts with their numbers, without the suffix _IRQn. *)
Definition irqs : list (string * Z) :=
 ([
   ("DMA0", 0); ("DMA1", 1); ("DMA2", 2); ("DMA3", 3); ("DMA4", 4); ("DMA5", 5); ("DMA6", 6); ("DMA7", 7); ("DMA8", 8);
   ("DMA9", 9); ("DMA10", 10); ("DMA11", 11); ("DMA12", 12); ("DMA13", 13); ("DMA14", 14); ("DMA15", 15); ("DMA_Error", 16);
   ("MCM", 17); ("FTFC", 18); ("Read_Collision", 19); ("LVD_LVW", 20); ("FTFC_Fault", 21); ("WDOG_EWM", 22); ("RCM", 23);
   ("LPI2C0_Master", 24); ("LPI2C0_Slave", 25); ("LPSPI0", 26); ("LPSPI1", 27); ("LPSPI2", 28); ("LPI2C1_Master", 29);
   ("LPI2C1_Slave", 30); ("LPUART0_RxTx", 31); ("LPUART1_RxTx", 33); ("LPUART2_RxTx", 35); ("ADC0", 39); ("ADC1", 40);
   ("CMP0", 41); ("ERM_single_fault", 44); ("ERM_double_fault", 45); ("RTC", 46); ("RTC_Seconds", 47); ("LPIT0_Ch0", 48);
   ("LPIT0_Ch1", 49); ("LPIT0_Ch2", 50); ("LPIT0_Ch3", 51); ("PDB0", 52); ("SAI1_Tx", 55); ("SAI1_Rx", 56); ("SCG", 57);
   ("LPTMR0", 58); ("PORTA", 59); ("PORTB", 60); ("PORTC", 61); ("PORTD", 62); ("PORTE", 63); ("SWI", 64); ("QSPI", 65);
   ("PDB1", 68); ("FLEXIO", 69); ("SAI0_Tx", 70); ("SAI0_Rx", 71); ("ENET_TIMER", 72); ("ENET_TX", 73); ("ENET_RX", 74);
   ("ENET_ERR", 75); ("ENET_STOP", 76); ("ENET_WAKE", 77); ("CAN0_ORed", 78); ("CAN0_Error", 79); ("CAN0_Wake_Up", 80);
   ("CAN0_ORed_0_15_MB", 81); ("CAN0_ORed_16_31_MB", 82); ("CAN1_ORed", 85); ("CAN1_Error", 86); ("CAN1_ORed_0_15_MB", 88);
   ("CAN1_ORed_16_31_MB", 89); ("CAN2_ORed", 92); ("CAN2_Error", 93); ("CAN2_ORed_0_15_MB", 95); ("CAN2_ORed_16_31_MB", 96);
   ("FTM0_Ch0_Ch1", 99); ("FTM0_Ch2_Ch3", 100); ("FTM0_Ch4_Ch5", 101); ("FTM0_Ch6_Ch7", 102); ("FTM0_Fault", 103);
   ("FTM0_Ovf_Reload", 104); ("FTM1_Ch0_Ch1", 105); ("FTM1_Ch2_Ch3", 106); ("FTM1_Ch4_Ch5", 107); ("FTM1_Ch6_Ch7", 108);
   ("FTM1_Fault", 109); ("FTM1_Ovf_Reload", 110); ("FTM2_Ch0_Ch1", 111); ("FTM2_Ch2_Ch3", 112); ("FTM2_Ch4_Ch5", 113);
   ("FTM2_Ch6_Ch7", 114); ("FTM2_Fault", 115); ("FTM2_Ovf_Reload", 116); ("FTM3_Ch0_Ch1", 117); ("FTM3_Ch2_Ch3", 118);
   ("FTM3_Ch4_Ch5", 119); ("FTM3_Ch6_Ch7", 120); ("FTM3_Fault", 121); ("FTM3_Ovf_Reload", 122); ("FTM4_Ch0_Ch1", 123);
   ("FTM4_Ch2_Ch3", 124); ("FTM4_Ch4_Ch5", 125); ("FTM4_Ch6_Ch7", 126); ("FTM4_Fault", 127); ("FTM4_Ovf_Reload", 128);
   ("FTM5_Ch0_Ch1", 129); ("FTM5_Ch2_Ch3", 130); ("FTM5_Ch4_Ch5", 131); ("FTM5_Ch6_Ch7", 132); ("FTM5_Fault", 133);
   ("FTM5_Ovf_Reload", 134); ("FTM6_Ch0_Ch1", 135); ("FTM6_Ch2_Ch3", 136); ("FTM6_Ch4_Ch5", 137); ("FTM6_Ch6_Ch7", 138);
   ("FTM6_Fault", 139); ("FTM6_Ovf_Reload", 140); ("FTM7_Ch0_Ch1", 141); ("FTM7_Ch2_Ch3", 142); ("FTM7_Ch4_Ch5", 143);
   ("FTM7_Ch6_Ch7", 144); ("FTM7_Fault", 145); ("FTM7_Ovf_Reload", 146)
  ])%string.

(** What the linker makes of a name: [strong] are the program's own definitions of handlers, [base] has the addresses of __StackTop,
    Reset_Handler and DefaultISR. startup_S32K148.S lines 356-370 (weak names). *)
Definition resolve (strong : string -> option Z) (base : string -> Z) (name : string) : Z :=
  if existsb (String.eqb name) weak_handlers
  then match strong name with Some a => a | None => base "DefaultISR"%string end
  else base name.
(** A word of startup_S32K148.S lines 35-292 after linking. *)
Definition entry_word (strong : string -> option Z) (base : string -> Z) (e : entry) : Z :=
  match e with Sym s => resolve strong base s | Word w => w end.
