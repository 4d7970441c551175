(** Model of the code for the S32K148 evaluation board under test/ontarget/S32K148EVB that is not register configuration:
    src/LPUART.c (transmission and reception), src/test_sys.c (replacements of libc calls) and
    Project_Settings/Startup_Code/startup.c (init_data_bss). *)
From Coq Require Import ZArith Bool List.
From Verif Require Import Outcome.
Import ListNotations.
Open Scope Z_scope.

(** ** The serial port *)

(** Accesses to the registers STAT and DATA of LPUART1, oldest first. LPUART.c lines 75-78 and 102-105. *)
Inductive bus : Type := RdStat (v : Z) | RdData (v : Z) | WrData (v : Z).

(** What the device answers to a read, given all accesses before; [true] reads STAT, [false] DATA.
    Reads at LPUART.c lines 75 and 102-105. *)
Definition device : Type := list bus -> bool -> Z.

(** include/S32K148.h line 8487. *)
Definition TDRE_MASK : Z := 0x800000.
(** S32K148.h line 8488. *)
Definition TDRE_SHIFT : Z := 23.
(** S32K148.h line 8479. *)
Definition RDRF_MASK : Z := 0x200000.
(** S32K148.h line 8480. *)
Definition RDRF_SHIFT : Z := 21.

(** LPUART.c lines 75-76 and 102-103: wait for a bit of STAT. [fuel] bounds the number of reads; [None] says that they did not
    suffice. *)
Fixpoint wait_stat (fuel : nat) (dev : device) (mask shift : Z) (tr : list bus) : option (list bus) :=
  match fuel with
  | O => None
  | S k =>
      let v := dev tr true in
      let tr := tr ++ [RdStat v] in
      if Z.shiftr (Z.land v mask) shift =? 0 then wait_stat k dev mask shift tr else Some tr
  end.

(** LPUART.c lines 73-79. A char is unsigned on this platform (AAPCS), so that the register gets 0..255. *)
Definition transmit_char (fuel : nat) (dev : device) (tr : list bus) (send : Z) : option (list bus) :=
  match wait_stat fuel dev TDRE_MASK TDRE_SHIFT tr with
  | None => None
  | Some tr => Some (tr ++ [WrData send])
  end.

(** LPUART.c lines 81-89, on what is left of the array. Reading past the end of the
    array is undefined. Simplification: the 32-bit index does not overflow, an array on this 32-bit machine being shorter. *)
Fixpoint transmit_string (fuel : nat) (dev : device) (tr : list bus) (data : list Z) : option (outcome (list bus)) :=
  match data with
  | [] => Some UB
  | c :: rest =>
      if c =? 0 then Some (Ret tr)
      else match transmit_char fuel dev tr c with
           | None => None
           | Some tr => transmit_string fuel dev tr rest
           end
  end.

(** LPUART.c lines 91-97, from the current index on: [len] characters left, [data] what is left of the array. *)
Fixpoint transmit_string_len (fuel : nat) (dev : device) (tr : list bus) (data : list Z) (len : nat) {struct len}
  : option (outcome (list bus)) :=
  match len with
  | O => Some (Ret tr)
  | S k =>
      match data with
      | [] => Some UB
      | c :: rest => match transmit_char fuel dev tr c with
                     | None => None
                     | Some tr => transmit_string_len fuel dev tr rest k
                     end
      end
  end.

(** LPUART.c lines 99-107: the 32-bit register is converted to char. *)
Definition receive_char (fuel : nat) (dev : device) (tr : list bus) : option (Z * list bus) :=
  match wait_stat fuel dev RDRF_MASK RDRF_SHIFT tr with
  | None => None
  | Some tr => let v := dev tr false in Some (v mod 256, tr ++ [RdData v])
  end.

(** LPUART.c lines 109-115. *)
Definition receive_and_echo_char (fuel : nat) (dev : device) (tr : list bus) : option (list bus) :=
  match receive_char fuel dev tr with
  | None => None
  | Some (send, tr) =>
      match transmit_char fuel dev tr send with
      | None => None
      | Some tr => match transmit_char fuel dev tr 10 with
                   | None => None
                   | Some tr => transmit_char fuel dev tr 13
                   end
      end
  end.

(** ** Replacements of libc calls *)

(** Set at test_sys.c lines 16, 28, 44, 55, 67 and 74. *)
Inductive errno : Type := EINVAL | EACCES | ENOENT | EIO.

(** test_sys.c lines 50-60. [buf] is null or the bytes from the pointer on. It answers the result, errno if it was set, and
    the accesses. *)
Definition sys_write (fuel : nat) (dev : device) (tr : list bus) (fd : Z) (buf : option (list Z)) (count : nat)
  : option (outcome (Z * option errno * list bus)) :=
  match buf with
  | None => Some (Ret (-1, Some EINVAL, tr))
  | Some data =>
      if (count =? 0)%nat then Some (Ret (-1, Some EINVAL, tr))
      else match transmit_string_len fuel dev tr data count with
           | None => None
           | Some UB => Some UB
           | Some (Ret tr) => Some (Ret (0, None, tr))
           end
  end.

(** test_sys.c lines 12-22. The answer is whether the pointer is returned, errno, and the bytes of the buffer; storing outside of it
    is undefined. *)
Definition sys_getcwd (buf : option (list Z)) (size : nat) : outcome (bool * option errno * option (list Z)) :=
  match buf with
  | None => Ret (false, Some EINVAL, None)
  | Some b =>
      if (size <=? 1)%nat then Ret (false, Some EINVAL, Some b)
      else match b with
           | _ :: _ :: rest => Ret (true, None, Some (47 :: 0 :: rest))
           | _ => UB
           end
  end.

(** test_sys.c lines 33-48. The argument is the caller's timeval, or null; so is the answer's last part. *)
Definition sys_gettimeofday (tp : option (Z * Z)) : Z * option errno * option (Z * Z) :=
  match tp with
  | Some _ => (0, None, Some (0, 0))
  | None => (-1, Some EINVAL, None)
  end.

(** test_sys.c lines 24-30: mkdir, _open and _close look at no argument. *)
Definition sys_mkdir : Z * option errno := (-1, Some EACCES).
(** test_sys.c lines 62-69. *)
Definition sys_open : Z * option errno := (-1, Some ENOENT).
(** test_sys.c lines 71-76. *)
Definition sys_close : Z * option errno := (-1, Some EIO).

(** test_sys.c lines 78-81: the int is converted to char. *)
Definition sys_putchar (fuel : nat) (dev : device) (tr : list bus) (c : Z) : option (list bus) := transmit_char fuel dev tr (c mod 256).

(** A program on the board, seen from here: the calls it makes. test_sys.c lines 12-81. *)
Inductive call : Type :=
  | C_write (fd : Z) (buf : option (list Z)) (count : nat)
  | C_putchar (c : Z)
  | C_getcwd (buf : option (list Z)) (size : nat)
  | C_gettimeofday (tp : option (Z * Z))
  | C_mkdir | C_open | C_close.

(** The answer to a call: the number it returns (for getcwd: 1 for the pointer it was given, 0 for null; for _putchar, which returns
    nothing, 0) and errno if it was set. test_sys.c lines 12-81. *)
Definition do_call (fuel : nat) (dev : device) (c : call) (tr : list bus) : option (outcome (Z * option errno * list bus)) :=
  match c with
  | C_write fd buf count => sys_write fuel dev tr fd buf count
  | C_putchar x => match sys_putchar fuel dev tr x with None => None | Some tr => Some (Ret (0, None, tr)) end
  | C_getcwd buf size => match sys_getcwd buf size with
                         | UB => Some UB
                         | Ret (ok, e, _) => Some (Ret (if ok then 1 else 0, e, tr))
                         end
  | C_gettimeofday tp => let '(r, e, _) := sys_gettimeofday tp in Some (Ret (r, e, tr))
  | C_mkdir => Some (Ret (sys_mkdir, tr))
  | C_open => Some (Ret (sys_open, tr))
  | C_close => Some (Ret (sys_close, tr))
  end.

(** Any calls of test_sys.c lines 12-81. *)
Fixpoint do_calls (fuel : nat) (dev : device) (cs : list call) (tr : list bus) : option (outcome (list (Z * option errno) * list bus)) :=
  match cs with
  | [] => Some (Ret ([], tr))
  | c :: rest =>
      match do_call fuel dev c tr with
      | None => None
      | Some UB => Some UB
      | Some (Ret (a, tr)) =>
          match do_calls fuel dev rest tr with
          | None => None
          | Some UB => Some UB
          | Some (Ret (l, tr)) => Some (Ret (a :: l, tr))
          end
      end
  end.

(** ** Start-up *)

(** Memory, one byte per address. What startup.c lines 87-185 write to. *)
Definition memory : Type := Z -> Z.
(** A store of startup.c lines 150-184. *)
Definition store1 (m : memory) (a v : Z) : memory := fun x => if x =? a then v else m x.

(** The symbols of the linker file (startup.c lines 100-143). *)
Record layout : Type := Layout {
  vector_table : Z; vector_ram : Z; vector_size : Z;
  data_rom : Z; data_rom_end : Z; data_ram : Z;
  code_rom : Z; code_rom_end : Z; code_ram : Z;
  bss_start : Z; bss_end : Z
}.

(** startup.c lines 150-153: [todo] words left from word [n] on; a word is its four bytes. *)
Fixpoint copy_words (todo : nat) (n : Z) (dst src : Z) (m : memory) : memory :=
  match todo with
  | O => m
  | S k =>
      let a := src + 4 * n in
      let b0 := m a in let b1 := m (a + 1) in let b2 := m (a + 2) in let b3 := m (a + 3) in
      let d := dst + 4 * n in
      copy_words k (n + 1) dst src (store1 (store1 (store1 (store1 m d b0) (d + 1) b1) (d + 2) b2) (d + 3) b3)
  end.

(** startup.c lines 164-169 and 172-177. The loop ends when the source pointer equals its end; [fuel] bounds the iterations.
    Addresses are 32-bit and wrap around. *)
Fixpoint copy_until (fuel : nat) (dst src src_end : Z) (m : memory) : option memory :=
  match fuel with
  | O => None
  | S k => if src_end =? src then Some m
           else copy_until k ((dst + 1) mod 2 ^ 32) ((src + 1) mod 2 ^ 32) src_end (store1 m dst (m src))
  end.

(** startup.c lines 180-184. *)
Fixpoint clear_until (fuel : nat) (start stop : Z) (m : memory) : option memory :=
  match fuel with
  | O => None
  | S k => if stop =? start then Some m else clear_until k ((start + 1) mod 2 ^ 32) stop (store1 m start 0)
  end.

(** startup.c lines 87-185: memory and the vector table register afterwards. *)
Definition init_data_bss (fuel : nat) (L : layout) (m : memory) : option (memory * Z) :=
  let '(m, vtor) :=
    if negb (vector_ram L =? vector_table L)
    then (copy_words (Z.to_nat (vector_size L / 4)) 0 (vector_ram L) (vector_table L) m, vector_ram L)
    else (m, vector_table L) in
  match copy_until fuel (data_ram L) (data_rom L) (data_rom_end L) m with
  | None => None
  | Some m =>
      match copy_until fuel (code_ram L) (code_rom L) (code_rom_end L) m with
      | None => None
      | Some m =>
          match clear_until fuel (bss_start L) (bss_end L) m with
          | None => None
          | Some m => Some (m, vtor)
          end
      end
  end.
