(** Specification vocabulary for the evaluation board. *)
From Coq Require Import ZArith Bool List.
From Verif Require Import Outcome TargetModel.
Import ListNotations.
Open Scope Z_scope.

(** The accesses that transmit these characters: for each, some reads of the status with bit 23 (transmit buffer empty) clear, one
    with it set, and then at once the write of that character. *)
Inductive sends : list Z -> list bus -> Prop :=
| sends_nil : sends [] []
| sends_cons : forall c cs busy v rest,
    Forall (fun s => Z.testbit s 23 = false) busy -> Z.testbit v 23 = true -> sends cs rest ->
    sends (c :: cs) (map RdStat busy ++ [RdStat v; WrData c] ++ rest).

(** The accesses that receive a character: bit 21 (receive buffer full) is awaited and then the data register read. *)
Definition receives (d : Z) (acc : list bus) : Prop :=
  exists busy v, Forall (fun s => Z.testbit s 21 = false) busy /\ Z.testbit v 21 = true /\
    acc = map RdStat busy ++ [RdStat v; RdData d].

(** The history after [k] further reads of the status. *)
Fixpoint polled (dev : device) (tr : list bus) (k : nat) : list bus :=
  match k with O => tr | S j => polled dev (tr ++ [RdStat (dev tr true)]) j end.

(** Whatever has happened, one of the next [n] reads of the status finds the bit set. *)
Definition ready_within (n : nat) (bit : Z) (dev : device) : Prop :=
  forall tr, exists k, (k < n)%nat /\ Z.testbit (dev (polled dev tr k) true) bit = true.

(** The part of a string before its first null character. *)
Fixpoint before_null (s : list Z) : list Z :=
  match s with [] => [] | c :: t => if c =? 0 then [] else c :: before_null t end.

(** ** Calls of the C library *)

(** The buffers are as long as the caller says. *)
Definition honest (c : call) : Prop :=
  match c with
  | C_write _ (Some data) count => (count <= length data)%nat
  | C_getcwd (Some b) size => (size <= length b)%nat
  | _ => True
  end.

(** The characters a call asks to print. *)
Definition printed (c : call) : list Z :=
  match c with
  | C_write _ (Some data) count => firstn count data
  | C_putchar x => [x mod 256]
  | _ => []
  end.

(** The calls that can be served: there are no files, and there has to be something to write or to write to. *)
Definition served (c : call) : bool :=
  match c with
  | C_write _ (Some _) (S _) | C_putchar _ | C_getcwd (Some _) (S (S _)) | C_gettimeofday (Some _) => true
  | _ => false
  end.
(** Why a call is not served: no directory may be made, no file is found to open, closing one is an input/output error; any other
    call was given a bad argument. *)
Definition reason (c : call) : errno :=
  match c with C_mkdir => EACCES | C_open => ENOENT | C_close => EIO | _ => EINVAL end.
(** Failure as the C library's documentation has it: -1 (null for getcwd), and errno says why. *)
Definition reports_failure (c : call) (a : Z * option errno) : Prop :=
  fst a = (match c with C_getcwd _ _ => 0 | _ => -1 end) /\ snd a = Some (reason c).

(** ** Start-up *)
Definition within (x start len : Z) : Prop := start <= x < start + len.
Definition apart (a n b k : Z) : Prop := forall x, within x a n -> within x b k -> False.

(** Sizes of the parts. The vector table is copied in words, and only if it has another place in RAM. *)
Definition vector_len (L : layout) : Z := if vector_ram L =? vector_table L then 0 else 4 * (vector_size L / 4).
Definition data_len (L : layout) : Z := data_rom_end L - data_rom L.
Definition code_len (L : layout) : Z := code_rom_end L - code_rom L.
Definition bss_len (L : layout) : Z := bss_end L - bss_start L.

(** What a linker file has to provide: parts with an end not before their start and inside the address space, the places to fill
    apart from each other and from what is still to be read. *)
Record sound_layout (L : layout) : Prop := {
  sl_vec : 0 <= vector_size L;
  sl_data : 0 <= data_rom L /\ 0 <= data_len L /\ data_rom_end L < 2 ^ 32;
  sl_code : 0 <= code_rom L /\ 0 <= code_len L /\ code_rom_end L < 2 ^ 32;
  sl_bss : 0 <= bss_start L /\ 0 <= bss_len L /\ bss_end L < 2 ^ 32;
  sl_data_ram : 0 <= data_ram L /\ data_ram L + data_len L <= 2 ^ 32;
  sl_code_ram : 0 <= code_ram L /\ code_ram L + code_len L <= 2 ^ 32;
  sl_vv : apart (vector_table L) (vector_len L) (vector_ram L) (vector_len L);
  sl_dv : apart (data_rom L) (data_len L) (vector_ram L) (vector_len L);
  sl_dd : apart (data_rom L) (data_len L) (data_ram L) (data_len L);
  sl_cv : apart (code_rom L) (code_len L) (vector_ram L) (vector_len L);
  sl_cd : apart (code_rom L) (code_len L) (data_ram L) (data_len L);
  sl_cc : apart (code_rom L) (code_len L) (code_ram L) (code_len L);
  sl_rvd : apart (vector_ram L) (vector_len L) (data_ram L) (data_len L);
  sl_rvc : apart (vector_ram L) (vector_len L) (code_ram L) (code_len L);
  sl_rvb : apart (vector_ram L) (vector_len L) (bss_start L) (bss_len L);
  sl_rdc : apart (data_ram L) (data_len L) (code_ram L) (code_len L);
  sl_rdb : apart (data_ram L) (data_len L) (bss_start L) (bss_len L);
  sl_rcb : apart (code_ram L) (code_len L) (bss_start L) (bss_len L)
}.

(** Memory as the program expects it. *)
Definition initialised (L : layout) (before after : memory) : Prop :=
  (forall i, 0 <= i < vector_len L -> after (vector_ram L + i) = before (vector_table L + i)) /\
  (forall i, 0 <= i < data_len L -> after (data_ram L + i) = before (data_rom L + i)) /\
  (forall i, 0 <= i < code_len L -> after (code_ram L + i) = before (code_rom L + i)) /\
  (forall i, 0 <= i < bss_len L -> after (bss_start L + i) = 0) /\
  (forall x, ~ within x (vector_ram L) (vector_len L) -> ~ within x (data_ram L) (data_len L) ->
             ~ within x (code_ram L) (code_len L) -> ~ within x (bss_start L) (bss_len L) -> after x = before x).
