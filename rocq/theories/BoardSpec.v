(** Specification vocabulary for the configuration of the evaluation board. *)
From Coq Require Import ZArith Bool List String Ascii.
From Verif Require Import Outcome TargetModel TargetSpec BoardModel.
Import ListNotations.
Open Scope list_scope.
Open Scope Z_scope.

(** The number in the [width] bits of [v] from bit [low] on. *)
Definition bits (v low width : Z) : Z := v / 2 ^ low mod 2 ^ width.

(** ** Clocks (reference manual of the S32K1xx, chapter SCG) *)

(** The clock chosen by CSR, in Hz, as a fraction: the crystal of 8 MHz, the slow and the fast internal oscillator, or the crystal's
    frequency multiplied and divided by the PLL, whose output is halved. *)
Inductive source (regs : reg -> Z) : Z -> Z -> Prop :=
| src_crystal : bits (regs CSR) 24 4 = 1 -> source regs 8000000 1
| src_slow_low : bits (regs CSR) 24 4 = 2 -> bits (regs SIRCCFG) 0 1 = 0 -> source regs 2000000 1
| src_slow_high : bits (regs CSR) 24 4 = 2 -> bits (regs SIRCCFG) 0 1 = 1 -> source regs 8000000 1
| src_fast : bits (regs CSR) 24 4 = 3 -> source regs (48000000 + 4000000 * bits (regs FIRCCFG) 0 2) 1
| src_pll : bits (regs CSR) 24 4 = 6 ->
    source regs (8000000 * (bits (regs SPLLCFG) 16 5 + 16)) (2 * (bits (regs SPLLCFG) 8 3 + 1)).

(** [f] is the core frequency in Hz, less the fraction of a Hz: the source divided by DIVCORE + 1. *)
Definition core_hz (regs : reg -> Z) (f : Z) : Prop :=
  exists num den, source regs num den /\
    let d := den * (bits (regs CSR) 16 4 + 1) in f * d <= num < (f + 1) * d.

(** A chip whose registers hold these values. *)
Definition steady (c : chip) (regs : reg -> Z) : Prop := forall h r, answer c h r = regs r.

(** What a chip answers that is asked, from the moment [h] on, for CSR twice and then for one of the configuration registers, or for
    SPLLCFG twice: [regs] has each field as it is when it is read. DIVCORE is of the first answer for CSR and the source of the second,
    PREDIV of the first answer for SPLLCFG and MULT of the second. *)
Definition when_read (c : chip) (h : list access) (regs : reg -> Z) : Prop :=
  let h1 := h ++ [Rd CSR (answer c h CSR)] in
  let h2 := h1 ++ [Rd CSR (answer c h1 CSR)] in
  let h3 := h2 ++ [Rd SPLLCFG (answer c h2 SPLLCFG)] in
  bits (regs CSR) 16 4 = bits (answer c h CSR) 16 4 /\ bits (regs CSR) 24 4 = bits (answer c h1 CSR) 24 4 /\
  regs SIRCCFG = answer c h2 SIRCCFG /\ regs FIRCCFG = answer c h2 FIRCCFG /\
  bits (regs SPLLCFG) 8 3 = bits (answer c h2 SPLLCFG) 8 3 /\ bits (regs SPLLCFG) 16 5 = bits (answer c h3 SPLLCFG) 16 5.

(** ** Histories *)

(** The value last written to a register. *)
Definition reg_eq_dec (a b : reg) : {a = b} + {a <> b}.
Proof. decide equality; apply Z.eq_dec. Defined.
Fixpoint last_write (r : reg) (h : list access) (old : option Z) : option Z :=
  match h with
  | [] => old
  | Rd _ _ :: t => last_write r t old
  | Wr q v :: t => last_write r t (if reg_eq_dec q r then Some v else old)
  end.
Definition written (r : reg) (h : list access) : option Z := last_write r h None.

(** Since its last write, if any, the register was read and its bit [b] was [x]. *)
Definition reported (r : reg) (b : Z) (x : bool) (h : list access) : Prop :=
  exists h1 v h2, h = h1 ++ Rd r v :: h2 /\ Z.testbit v b = x /\ forall w, ~ In (Wr r w) h2.

(** What has to hold when a register is written: the control registers of oscillator and PLL have been seen unlocked, the PLL is
    configured while it is disabled, and it is selected as the clock only when oscillator and PLL have been seen valid. *)
Definition allowed (r : reg) (v : Z) (before : list access) : Prop :=
  match r with
  | SOSCCSR => reported SOSCCSR 23 false before
  | SPLLCSR => reported SPLLCSR 23 false before
  | SPLLCFG => reported SOSCCSR 24 true before /\ exists w, written SPLLCSR before = Some w /\ Z.testbit w 0 = false
  | RCCR => reported SOSCCSR 24 true before /\ reported SPLLCSR 24 true before /\
            exists w, written SPLLCSR before = Some w /\ Z.testbit w 0 = true
  | _ => True
  end.
Definition orderly (h : list access) : Prop :=
  forall before r v after, h = before ++ Wr r v :: after -> allowed r v before.

Definition history (p : progress) : list access := match p with Waiting h => h | Done h => h end.

(** ** A chip that answers *)

(** The history after [k] further reads of a register. *)
Fixpoint reads (c : chip) (r : reg) (h : list access) (k : nat) : list access :=
  match k with O => h | S j => reads c r (h ++ [Rd r (answer c h r)]) j end.

(** One of the next [n] reads of the register satisfies [P]. *)
Definition soon (n : nat) (c : chip) (r : reg) (h : list access) (P : Z -> Prop) : Prop :=
  exists k, (k < n)%nat /\ P (answer c (reads c r h k) r).

(** Whatever has happened, the control registers are unlocked soon; once enabled, oscillator and PLL are valid soon; once selected, the
    clock is in use soon. *)
Record lively (n : nat) (c : chip) : Prop := {
  lv_osc_unlocked : forall h, soon n c SOSCCSR h (fun v => Z.testbit v 23 = false);
  lv_pll_unlocked : forall h, soon n c SPLLCSR h (fun v => Z.testbit v 23 = false);
  lv_osc_valid : forall h w, written SOSCCSR h = Some w -> Z.testbit w 0 = true ->
    soon n c SOSCCSR h (fun v => Z.testbit v 24 = true);
  lv_pll_valid : forall h w, written SPLLCSR h = Some w -> Z.testbit w 0 = true ->
    soon n c SPLLCSR h (fun v => Z.testbit v 24 = true);
  lv_selected : forall h w, written RCCR h = Some w -> soon n c CSR h (fun v => bits v 24 4 = bits w 24 4)
}.

(** CSR shows what was written to RCCR, and SPLLCFG what was written to it (32 bits of it). *)
Definition shows_clock (c : chip) : Prop :=
  (forall h w, written RCCR h = Some w -> answer c h CSR = w mod 2 ^ 32) /\
  (forall h w, written SPLLCFG h = Some w -> answer c h SPLLCFG = w mod 2 ^ 32).

(** A register that keeps what is written to it (32 bits of it), and held [v0] before. *)
Definition keeps (c : chip) (r : reg) (v0 : Z) : Prop :=
  forall h, answer c h r = match written r h with Some v => v mod 2 ^ 32 | None => v0 end.

(** Equal except in these bits. *)
Definition same_but (v w low width : Z) : Prop :=
  forall b, 0 <= b -> ~ (low <= b < low + width) -> Z.testbit v b = Z.testbit w b.

(** ** Console *)

(** The characters of a line that ends in line feed and carriage return. *)
Definition line (s : string) : list Z := (map (fun a => Z.of_N (N_of_ascii a)) (list_ascii_of_string s) ++ [10; 13])%list.

(** One round of the loop in main: the result is sent, a character is received and sent back with a line end. *)
Inductive rounds_of (result : Z) : list Z -> list bus -> Prop :=
| ro_nil : rounds_of result [] []
| ro_cons : forall d ds s1 r s2 rest,
    sends [result mod 256] s1 -> receives d r -> sends [d mod 256; 10; 13] s2 -> rounds_of result ds rest ->
    rounds_of result (d :: ds) (s1 ++ r ++ s2 ++ rest).

(** ** Link *)

(** Inputs as a linker gets them: no negative sizes, alignments that are powers of two, a heap and a stack. *)
Record sane_inputs (i : inputs) : Prop := {
  si_vectors : 0 <= i_vectors i; si_config : 0 <= i_config i; si_text : 0 <= i_text i; si_rest : 0 <= i_rest i;
  si_user : 0 <= i_user i; si_data : 0 <= i_data i; si_code : 0 <= i_code i; si_bss : 0 <= i_bss i;
  si_a_data : exists k, 0 <= k /\ a_data i = 2 ^ k; si_a_code : exists k, 0 <= k /\ a_code i = 2 ^ k;
  si_a_bss : exists k, 0 <= k /\ a_bss i = 2 ^ k;
  si_custom : 0 <= i_custom i; si_heap : 0 <= i_heap i; si_stack : 0 <= i_stack i
}.

(** Flash has 1.5 MiB from 0 on; the lower RAM ends where the upper begins, at 0x20000000. *)
Definition in_flash (a n : Z) : Prop := 0 <= a /\ a + n <= 0x180000.
Definition in_lower_ram (a n : Z) : Prop := 0x1FFE0000 <= a /\ a + n <= 0x20000000.
Definition in_upper_ram (a n : Z) : Prop := 0x20000000 <= a /\ a + n <= 0x2001F000.

(** [y] is the first multiple of [a] from [x] on. *)
Definition next_multiple (a x y : Z) : Prop := x <= y < x + a /\ y mod a = 0.

(** The sizes fit: vectors and flash configuration their areas, code and constants the rest of flash, vectors (unless they stay in
    flash), data, code and zeroed data, one after the other, the lower RAM, and the rest of the data, heap and stack the upper RAM. *)
Definition fits_flash (i : inputs) : Prop :=
  i_vectors i <= 0x400 /\ i_config i <= 0x10 /\
  exists t, next_multiple 4 (0x410 + i_text i) t /\ t + i_rest i <= 0x180000.
Definition fits_lower_ram (i : inputs) : Prop :=
  exists e0 d e1 c e2 b e3,
    next_multiple 4 (0x1FFE0000 + (if m_flash_vectors i then 0 else 0x400) + i_user i) e0 /\
    next_multiple (a_data i) e0 d /\ next_multiple 4 (d + i_data i) e1 /\
    next_multiple (a_code i) e1 c /\ next_multiple 4 (c + i_code i) e2 /\
    next_multiple (a_bss i) e2 b /\ next_multiple 4 (b + i_bss i) e3 /\
    e3 <= 0x20000000.
Definition fits_upper_ram (i : inputs) : Prop :=
  exists h s, next_multiple 8 (0x20000000 + i_custom i) h /\ next_multiple 8 (h + i_heap i) s /\ s + i_stack i <= 0x2001F000.

(** What was recorded of reads after [h] is what the chip answered to them, at that point. *)
Definition true_reads (c : chip) (h h' : list access) : Prop :=
  exists a, h' = h ++ a /\ forall a1 r v a2, a = a1 ++ Rd r v :: a2 -> v = answer c (h ++ a1) r.
