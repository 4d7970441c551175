(** Model of the register configuration of the S32K148 evaluation board under test/ontarget/S32K148EVB: src/clocks_and_modes.c,
    Project_Settings/Startup_Code/system_S32K148.c, the initialisation in src/LPUART.c, src/main.cpp, and the linker file
    Project_Settings/Linker_Files/S32K1xx_flash.ld. *)
From Coq Require Import ZArith Bool List String Ascii.
From Verif Require Import Outcome TargetModel.
Import ListNotations.
Open Scope Z_scope.

(** ** Registers *)

(** The registers that are used; [PCCn] and [PCR] are arrays.
    clocks_and_modes.c lines 39-114, main.cpp lines 60-69, LPUART.c lines 39-71, system_S32K148.c lines 82-208. *)
Inductive reg : Type :=
| SOSCDIV | SOSCCFG | SOSCCSR | SPLLCSR | SPLLDIV | SPLLCFG | SIRCDIV | SIRCCFG | FIRCCFG | RCCR | CSR
| WDOG_CNT | WDOG_TOVAL | WDOG_CS | PCCn (i : Z) | PCR (i : Z) | BAUD | CTRL | AIRCR | CPACR | FPCCR.

(** An access to a register. A history has the oldest access first. As in clocks_and_modes.c line 72. *)
Inductive access : Type := Rd (r : reg) (v : Z) | Wr (r : reg) (v : Z).

(** What the chip answers to a read of a register after a history. Registers are volatile (S32K148.h lines 127-132). *)
Definition chip : Type := list access -> reg -> Z.

(** A register has 32 bits. REG_READ32 and the like, S32K148.h line 139. *)
Definition answer (c : chip) (h : list access) (r : reg) : Z := c h r mod 2 ^ 32.

(** How far a function got: still polling in one of its loops, or returned.
    The loops of clocks_and_modes.c lines 50, 60, 70, 81, 89 and 111. *)
Inductive progress : Type := Waiting (h : list access) | Done (h : list access).

(** One statement after the other, e.g. clocks_and_modes.c lines 45-46. *)
Definition and_then (p : progress) (k : list access -> progress) : progress :=
  match p with Waiting h => Waiting h | Done h => k h end.
Notation "'let>' h := p 'in' k" := (and_then p (fun h => k)) (at level 200, h name, right associativity).

(** An assignment to a register. E.g. clocks_and_modes.c line 45. *)
Definition write (r : reg) (v : Z) (h : list access) : progress := Done (h ++ [Wr r v]).

(** A compound assignment to a register: a read, then a write. E.g. clocks_and_modes.c line 72. *)
Definition update (c : chip) (r : reg) (f : Z -> Z) (h : list access) : progress :=
  let v := answer c h r in Done (h ++ [Rd r v; Wr r (f v)]).

(** A loop with an empty body that reads a register until the condition of the loop is false. [polls] bounds the number of reads, so
    that the progress after that many reads is known also where the loop never ends.
    clocks_and_modes.c lines 50, 60, 70, 81, 89 and 111. *)
Fixpoint poll_while (polls : nat) (c : chip) (r : reg) (busy : Z -> bool) (h : list access) : progress :=
  match polls with
  | O => Waiting h
  | S k => let v := answer c h r in let h := h ++ [Rd r v] in if busy v then poll_while k c r busy h else Done h
  end.

(** include/S32K148.h: the macros for a bit field with this mask and shift. The shift is of a uint32_t.
    Bit fields as in S32K148.h lines 8482 and 8490. *)
Definition field (mask shift x : Z) : Z := Z.land (Z.shiftl x shift mod 2 ^ 32) mask.
(** A field of a register, e.g. clocks_and_modes.c line 111. *)
Definition get (mask shift v : Z) : Z := Z.shiftr (Z.land v mask) shift.
(** Whether one of the bits is set, e.g. clocks_and_modes.c line 50. *)
Definition has (mask v : Z) : bool := negb (Z.land v mask =? 0).
(** The complement of a uint32_t. clocks_and_modes.c line 72. *)
Definition compl (m : Z) : Z := 2 ^ 32 - 1 - m.

(** S32K148.h lines 13573 and 13720. *)
Definition LK_MASK : Z := 0x800000.
(** S32K148.h lines 13577 and 13724. *)
Definition VLD_MASK : Z := 0x1000000.
(** S32K148.h lines 13494-13501, the same as lines 13511-13518. *)
Definition DIVCORE_MASK : Z := 0xF0000.
(** S32K148.h line 13495. *)
Definition DIVCORE_SHIFT : Z := 16.
(** S32K148.h line 13498. *)
Definition SCS_MASK : Z := 0xF000000.
(** S32K148.h line 13499. *)
Definition SCS_SHIFT : Z := 24.

(** ** src/clocks_and_modes.c *)

(** clocks_and_modes.c lines 39-62. *)
Definition SOSC_init_8MHz (n : nat) (c : chip) (h : list access) : progress :=
  let> h := write SOSCDIV (Z.lor (field 0x7 0 1) (field 0x700 8 1)) h in
  let> h := write SOSCCFG (Z.lor (field 0x30 4 2) 0x4) h in
  let> h := poll_while n c SOSCCSR (has LK_MASK) h in
  let> h := write SOSCCSR 0x1 h in
  poll_while n c SOSCCSR (fun v => negb (has VLD_MASK v)) h.

(** clocks_and_modes.c lines 64-91. *)
Definition SPLL_init_160MHz (n : nat) (c : chip) (h : list access) : progress :=
  let> h := poll_while n c SPLLCSR (has LK_MASK) h in
  let> h := update c SPLLCSR (fun v => Z.land v (compl 0x1)) h in
  let> h := update c SPLLDIV (fun v => Z.lor v (Z.lor (field 0x7 0 2) (field 0x700 8 3))) h in
  let> h := write SPLLCFG (field 0x1F0000 16 24) h in
  let> h := poll_while n c SPLLCSR (has LK_MASK) h in
  let> h := update c SPLLCSR (fun v => Z.lor v 0x1) h in
  poll_while n c SPLLCSR (fun v => negb (has VLD_MASK v)) h.

(** clocks_and_modes.c lines 93-114. *)
Definition NormalRUNmode_80MHz (n : nat) (c : chip) (h : list access) : progress :=
  let> h := write SIRCDIV (Z.lor (field 0x7 0 1) (field 0x700 8 1)) h in
  let> h := write RCCR (Z.lor (Z.lor (Z.lor (field SCS_MASK SCS_SHIFT 6) (field DIVCORE_MASK DIVCORE_SHIFT 1))
                                    (field 0xF0 4 1)) (field 0xF 0 2)) h in
  poll_while n c CSR (fun v => negb (get SCS_MASK SCS_SHIFT v =? 6)) h.

(** ** src/main.cpp, src/LPUART.c *)

(** main.cpp lines 65-70. *)
Definition WDOG_disable (h : list access) : progress :=
  let> h := write WDOG_CNT 0xD928C520 h in
  let> h := write WDOG_TOVAL 0xFFFF h in
  write WDOG_CS 0x2100 h.

(** main.cpp lines 49-63: PCC_PORTC_INDEX is 75 (S32K148.h line 9868), the masks are in lines 9910 and 10359. *)
Definition PORT_init (c : chip) (h : list access) : progress :=
  let> h := update c (PCCn 75) (fun v => Z.lor v 0x40000000) h in
  let> h := update c (PCR 6) (fun v => Z.lor v (field 0x700 8 2)) h in
  update c (PCR 7) (fun v => Z.lor v (field 0x700 8 2)) h.

(** LPUART.c lines 39-71: PCC_LPUART1_INDEX is 107 (S32K148.h line 9878), the masks are in lines 9906, 8391, 8434, 8582 and 8586. *)
Definition LPUART1_init (c : chip) (h : list access) : progress :=
  let> h := update c (PCCn 107) (fun v => Z.land v (compl 0x40000000)) h in
  let> h := update c (PCCn 107) (fun v => Z.lor v (Z.lor (field 0x7000000 24 2) 0x40000000)) h in
  let> h := write BAUD (Z.lor (field 0x1FFF 0 3) (field 0x1F000000 24 22)) h in
  write CTRL (Z.lor 0x40000 0x80000) h.

(** main.cpp lines 116-122. *)
Definition bring_up (n : nat) (c : chip) (h : list access) : progress :=
  let> h := WDOG_disable h in
  let> h := SOSC_init_8MHz n c h in
  let> h := SPLL_init_160MHz n c h in
  let> h := NormalRUNmode_80MHz n c h in
  let> h := PORT_init c h in
  LPUART1_init c h.

(** ** system_S32K148.c *)

(** system_S32K148.c lines 82-125. [fpu] says whether the compiler targets the floating point unit (include/s32_core_cm4.h lines 74-77); the erratum
    is defined (S32K148_features.h line 73), and SYSTEM_SMC_PMPROT_VALUE is not. The masks are in S32K148.h lines 12676, 12680,
    12719 and 14546-14577. *)
Definition SystemInit (fpu : bool) (c : chip) (h : list access) : progress :=
  let> h := (if fpu then
               let> h := update c CPACR (fun v => Z.lor v (Z.lor 0x300000 0xC00000)) h in
               update c FPCCR (fun v => Z.land v (compl 0x40000000)) h
             else Done h) in
  let> h := write WDOG_CNT 0xD928C520 h in
  let h := h ++ [Rd WDOG_CNT (answer c h WDOG_CNT)] in
  let> h := write WDOG_CS (Z.lor (Z.lor (Z.lor (Z.shiftl 1 13) (Z.shiftl 1 8)) (Z.shiftl 0 7)) (Z.shiftl 1 5)) h in
  write WDOG_TOVAL 0xFFFF h.

(** include/system_S32K148.h line 61. *)
Definition XTAL_HZ : Z := 8000000.
(** S32K148_features.h line 134. *)
Definition SIRC_LOW : Z := 2000000.
(** S32K148_features.h line 136. *)
Definition SIRC_HIGH : Z := 8000000.
(** S32K148_features.h lines 139-145, system_S32K148.c lines 142-147. *)
Definition firc_freq : list Z := [48000000; 52000000; 56000000; 60000000].

(** Products and sums of uint32_t. system_S32K148.c line 172. *)
Definition mul32 (a b : Z) : Z := (a * b) mod 2 ^ 32.
(** system_S32K148.c lines 149-171. *)
Definition add32 (a b : Z) : Z := (a + b) mod 2 ^ 32.

(** system_S32K148.c lines 136-183: the new value of the global variable SystemCoreClock, whose value was [old], and the history. Indexing the array
    beyond its end is undefined, and so is a division by zero. The registers are volatile: each is read where the code names it. *)
Definition SystemCoreClockUpdate (c : chip) (h : list access) (old : Z) : outcome (Z * list access) :=
  let v0 := answer c h CSR in
  let h := h ++ [Rd CSR v0] in
  let divider := add32 (get DIVCORE_MASK DIVCORE_SHIFT v0) 1 in
  let v1 := answer c h CSR in
  let h := h ++ [Rd CSR v1] in
  let scs := get SCS_MASK SCS_SHIFT v1 in
  let finish (out : Z) (h : list access) :=
    if divider =? 0 then UB else Ret (out / divider, h) in
  if scs =? 1 then finish XTAL_HZ h
  else if scs =? 2 then
    let v := answer c h SIRCCFG in
    finish (if negb (get 0x1 0 v =? 0) then SIRC_HIGH else SIRC_LOW) (h ++ [Rd SIRCCFG v])
  else if scs =? 3 then
    let v := answer c h FIRCCFG in
    match nth_error firc_freq (Z.to_nat (get 0x3 0 v)) with
    | None => UB
    | Some f => finish f (h ++ [Rd FIRCCFG v])
    end
  else if scs =? 6 then
    let v := answer c h SPLLCFG in
    let h := h ++ [Rd SPLLCFG v] in
    let prediv := add32 (get 0x700 8 v) 1 in
    let w := answer c h SPLLCFG in
    let h := h ++ [Rd SPLLCFG w] in
    let multi := add32 (get 0x1F0000 16 w) 16 in
    if mul32 prediv 2 =? 0 then UB else finish (mul32 XTAL_HZ multi / mul32 prediv 2) h
  else Ret (old, h).

(** system_S32K148.c lines 192-208. The masks are in S32K148.h lines 12346 and 12361, the key in S32K148_features.h line 493. *)
Definition SystemSoftwareReset (c : chip) (h : list access) : list access :=
  let v := answer c h AIRCR in
  let x := Z.land v (compl 0xFFFF0000) in
  let x := Z.lor x (field 0xFFFF0000 16 0x05FA) in
  let x := Z.lor x (field 0x4 2 1) in
  h ++ [Rd AIRCR v; Wr AIRCR x].

(** ** src/main.cpp, the rest of main *)

(** The characters of a literal, main.cpp lines 123-124. *)
Definition chars (s : string) : list Z := map (fun a => Z.of_nat (nat_of_ascii a)) (list_ascii_of_string s).

(** main.cpp line 123: the string with its terminator. *)
Definition greeting1 : list Z := (chars "Running LPUART example" ++ [10; 13; 0])%list.
(** main.cpp line 124. *)
Definition greeting2 : list Z := (chars "Input character to echo..." ++ [10; 13; 0])%list.

(** What googletest prints reaches the port through _write (test_sys.c lines 50-60): one buffer after the other. *)
Fixpoint print_all (fuel : nat) (dev : device) (tr : list bus) (bufs : list (list Z)) : option (outcome (list bus)) :=
  match bufs with
  | [] => Some (Ret tr)
  | b :: rest =>
      match sys_write fuel dev tr 1 (Some b) (List.length b) with
      | None => None
      | Some UB => Some UB
      | Some (Ret (_, _, tr)) => print_all fuel dev tr rest
      end
  end.

(** main.cpp lines 142-146, the first [rounds] rounds. The int is converted to char. *)
Fixpoint echo_loop (rounds fuel : nat) (dev : device) (tr : list bus) (result : Z) : option (list bus) :=
  match rounds with
  | O => Some tr
  | S k =>
      match transmit_char fuel dev tr (result mod 256) with
      | None => None
      | Some tr => match receive_and_echo_char fuel dev tr with
                   | None => None
                   | Some tr => echo_loop k fuel dev tr result
                   end
      end
  end.

(** main.cpp lines 123-146. [bufs] is what the tests print and [result] what they return; googletest itself is not modelled. *)
Definition console (rounds fuel : nat) (dev : device) (tr : list bus) (bufs : list (list Z)) (result : Z)
  : option (outcome (list bus)) :=
  match transmit_string fuel dev tr greeting1 with
  | None => None
  | Some UB => Some UB
  | Some (Ret tr) =>
      match transmit_string fuel dev tr greeting2 with
      | None => None
      | Some UB => Some UB
      | Some (Ret tr) =>
          match print_all fuel dev tr bufs with
          | None => None
          | Some UB => Some UB
          | Some (Ret tr) => match echo_loop rounds fuel dev tr result with
                             | None => None
                             | Some tr => Some (Ret tr)
                             end
          end
      end
  end.

(** ** S32K1xx_flash.ld *)

(** What the linker gets: the sizes of the input sections gathered into each output section, inner padding included, and the alignment
    of the four output sections in RAM. [m_flash_vectors] says whether the symbol __flash_vector_table__ is defined, [heap] and
    [stack] are HEAP_SIZE and STACK_SIZE. S32K1xx_flash.ld lines 39-40 and 65-250. *)
Record inputs : Type := Inputs {
  i_vectors : Z; i_config : Z; i_text : Z;
  i_rest : Z;        (* .ARM.extab to .fini_array, with the padding between them *)
  i_user : Z;        (* .m_interrupts_ram *)
  i_data : Z; i_code : Z; i_bss : Z;
  a_data : Z; a_code : Z; a_bss : Z;
  i_custom : Z;
  m_flash_vectors : bool;
  i_heap : Z; i_stack : Z
}.

(** The builtin ALIGN of the linker. S32K1xx_flash.ld lines 71-248. *)
Definition align_up (x a : Z) : Z := (x + a - 1) / a * a.

(** An output section in RAM from [dot] on (S32K1xx_flash.ld lines 185-195, 199-207, 212-224): its address, the symbol defined after the first ALIGN(4)
    and the one after the last. *)
Definition ram_section (dot align size : Z) : Z * Z * Z :=
  let start := align_up dot align in
  let first := align_up start 4 in
  (start, first, align_up (first + size) 4).

(** What the link yields: the symbols that startup.c uses, the addresses of the sections .data and .code, which are where the loader's
    images at __DATA_ROM and __CODE_ROM belong, and the places of heap and stack. S32K1xx_flash.ld lines 85-259. *)
Record linked : Type := Linked {
  symbols : layout;
  data_section : Z; code_section : Z; custom_end : Z;
  heap_base : Z; heap_limit : Z; stack_limit : Z; stack_top : Z
}.

(** S32K1xx_flash.ld lines 47-259. A section that does not fit its memory area fails the link, and so does the assertion. The images of .data and .code
    have addresses given by AT(...), which the linker does not hold against any memory area. *)
Definition link (i : inputs) : option linked :=
  let m_interrupts_end := 0x400 in
  let vectors_end := align_up (align_up 0 4 + i_vectors i) 4 in
  if m_interrupts_end <? vectors_end then None else
  let config_end := align_up (align_up 0x400 4 + i_config i) 4 in
  if 0x410 <? config_end then None else
  let text_end := align_up (align_up 0x410 4 + i_text i) 4 + i_rest i in
  if 0x410 + 0x17FBF0 <? text_end then None else
  let DATA_ROM := text_end in
  let m_data_end := 0x1FFE0000 + 0x20000 in
  let VECTOR_RAM__ := align_up 0x1FFE0000 4 in
  let vsize := if m_flash_vectors i then 0 else 0x400 in
  let ram_end := align_up (VECTOR_RAM__ + i_user i + vsize) 4 in
  if m_data_end <? ram_end then None else
  let VECTOR_RAM := if m_flash_vectors i then 0 else VECTOR_RAM__ in
  let RAM_VECTOR_TABLE_SIZE := if m_flash_vectors i then 0 else ram_end - VECTOR_RAM__ in
  let '(dsec, DATA_RAM, data_end) := ram_section ram_end (a_data i) (i_data i) in
  if m_data_end <? data_end then None else
  let DATA_END := DATA_ROM + (data_end - DATA_RAM) in
  let CODE_ROM := DATA_END in
  let '(csec, CODE_RAM, code_end) := ram_section data_end (a_code i) (i_code i) in
  if m_data_end <? code_end then None else
  let CODE_END := CODE_ROM + (code_end - CODE_RAM) in
  let '(_, BSS_START, BSS_END) := ram_section code_end (a_bss i) (i_bss i) in
  if m_data_end <? BSS_END then None else
  let m_data_2_end := 0x20000000 + 0x1F000 in
  let cust := 0x20000000 + i_custom i in
  if m_data_2_end <? cust then None else
  let HeapBase := align_up cust 8 in
  let HeapLimit := HeapBase + i_heap i in
  if m_data_2_end <? HeapLimit then None else
  let stack_end := align_up HeapLimit 8 + i_stack i in
  if m_data_2_end <? stack_end then None else
  let StackTop := m_data_2_end in
  let StackLimit := StackTop - i_stack i in
  if negb (HeapLimit <=? StackLimit) then None else
  Some (Linked (Layout 0 VECTOR_RAM RAM_VECTOR_TABLE_SIZE DATA_ROM DATA_END DATA_RAM CODE_ROM CODE_END CODE_RAM BSS_START BSS_END)
               dsec csec cust HeapBase HeapLimit StackLimit StackTop).
