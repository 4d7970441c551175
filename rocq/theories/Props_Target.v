(** C88-C91: the code for the evaluation board. *)
From Coq Require Import ZArith Bool List Lia.
From Verif Require Import Outcome TargetModel TargetSpec TargetProofs.
Import ListNotations.
Open Scope Z_scope.

(** A device whose transmit buffer is empty at every third read of the status and whose receiver is always full with the
    character 'A' (and flags in higher bits). *)
Definition ex_device : device := fun tr stat =>
  if stat then (if (length tr mod 3 =? 2)%nat then 0xA00000 else 0x200000) else 0x1041.

(** C88. [None] means still waiting for the device. *)
Theorem C88_transmits_each_character_once : forall len fuel dev tr data,
  match transmit_string_len fuel dev tr data len with
  | None => ~ ready_within fuel 23 dev
  | Some UB => (length data < len)%nat
  | Some (Ret tr') => (len <= length data)%nat /\ exists acc, tr' = tr ++ acc /\ sends (firstn len data) acc
  end.
Proof. exact transmit_len_spec. Qed.
Print Assumptions C88_transmits_each_character_once.

Theorem C88_transmits_up_to_null : forall data fuel dev tr,
  match transmit_string fuel dev tr data with
  | None => ~ ready_within fuel 23 dev
  | Some UB => ~ In 0 data
  | Some (Ret tr') => In 0 data /\ exists acc, tr' = tr ++ acc /\ sends (before_null data) acc
  end.
Proof. exact transmit_string_spec. Qed.
Print Assumptions C88_transmits_up_to_null.

Theorem C88_echo : forall fuel dev tr,
  match receive_and_echo_char fuel dev tr with
  | None => ~ (ready_within fuel 21 dev /\ ready_within fuel 23 dev)
  | Some tr' => exists d acc1 acc2, tr' = tr ++ acc1 ++ acc2 /\ receives d acc1 /\ sends [d mod 256; 10; 13] acc2
  end.
Proof. exact echo_spec. Qed.
Print Assumptions C88_echo.

(** A device that never reports an empty transmit buffer keeps the caller waiting forever. *)
Theorem C88_never_ready_never_returns : forall fuel dev tr c,
  (forall t, Z.testbit (dev t true) 23 = false) -> transmit_char fuel dev tr c = None.
Proof. exact transmit_hangs. Qed.
Print Assumptions C88_never_ready_never_returns.
Example C88_case :
  transmit_string_len 3 ex_device [] [104; 105; 33] 2 =
    Some (Ret [RdStat 0x200000; RdStat 0x200000; RdStat 0xA00000; WrData 104; RdStat 0x200000; RdStat 0xA00000; WrData 105]) /\
  transmit_string 3 ex_device [] [104; 0; 33] = Some (Ret [RdStat 0x200000; RdStat 0x200000; RdStat 0xA00000; WrData 104]) /\
  (exists t, receive_and_echo_char 3 ex_device [] = Some t /\ In (WrData 65) t) /\
  transmit_char 50 (fun _ _ => 0x200000) [] 104 = None.
Proof. split; [reflexivity|]. split; [reflexivity|]. split; [|reflexivity]. eexists. split; [vm_compute; reflexivity|]. cbn. tauto. Qed.

(** C89. Full statement: a successful _write answers the number of bytes it transmitted. It answers 0, always: *)
Theorem C89_write_reports_count_refuted : forall fuel dev tr fd data count r e tr', (0 < count)%nat ->
  sys_write fuel dev tr fd (Some data) count = Some (Ret (r, e, tr')) -> r <> Z.of_nat count /\ r = 0.
Proof.
  intros fuel dev tr fd data count r e tr' C H. assert (S := sys_write_spec fuel dev tr fd (Some data) count). rewrite H in S.
  destruct S as [([S|S] & _)|(d & acc & _ & _ & -> & _)]; [discriminate|lia|]. split; [lia|reflexivity].
Qed.
Print Assumptions C89_write_reports_count_refuted.
(** What it does: *)
Theorem C89_write_transmits_partial : forall fuel dev tr fd buf count,
  match sys_write fuel dev tr fd buf count with
  | None => ~ ready_within fuel 23 dev
  | Some UB => exists data, buf = Some data /\ (length data < count)%nat
  | Some (Ret (r, e, tr')) =>
      ((buf = None \/ count = 0%nat) /\ r = -1 /\ e = Some EINVAL /\ tr' = tr) \/
      (exists data acc, buf = Some data /\ (0 < count <= length data)%nat /\ r = 0 /\ e = None /\
         tr' = tr ++ acc /\ sends (firstn count data) acc)
  end.
Proof. exact sys_write_spec. Qed.
Print Assumptions C89_write_transmits_partial.
Example C89_case : sys_write 3 ex_device [] 1 (Some [104; 105; 33]) 1 =
  Some (Ret (0, None, [RdStat 0x200000; RdStat 0x200000; RdStat 0xA00000; WrData 104])).
Proof. reflexivity. Qed.

(** C90. *)
Theorem C90_startup_initialises_memory : forall L m fuel, sound_layout L ->
  data_len L < Z.of_nat fuel -> code_len L < Z.of_nat fuel -> bss_len L < Z.of_nat fuel ->
  exists m' vtor, init_data_bss fuel L m = Some (m', vtor) /\ vtor = vector_ram L /\ initialised L m m'.
Proof. exact init_spec. Qed.
Print Assumptions C90_startup_initialises_memory.
(** Vectors at 0 to 0x400, then data, then code; RAM at 0x20000000 with vectors, data, code and zeroed variables. *)
Definition ex_layout : layout :=
  Layout 0 0x20000000 0x400 0x8000 0x8006 0x20000400 0x8006 0x8009 0x20000406 0x2000040C 0x20000410.
Example C90_case : sound_layout ex_layout /\
  match init_data_bss 20 ex_layout (fun a => a mod 251) with
  | Some (m, vtor) => vtor = 0x20000000 /\ m 0x200003FF = 0x3FF mod 251 /\ m 0x20000405 = 0x8005 mod 251 /\ m 0x20000408 = 0x8008 mod 251 /\
      m 0x20000409 = 0x20000409 mod 251 /\ m 0x2000040F = 0 /\ m 0x20000410 = 0x20000410 mod 251
  | None => False end.
Proof.
  split; [|vm_compute; repeat split; reflexivity].
  constructor; unfold apart, within, vector_len, data_len, code_len, bss_len; cbn [ex_layout vector_table vector_ram vector_size data_rom data_rom_end data_ram
    code_rom code_rom_end code_ram bss_start bss_end]; try (change (536870912 =? 0) with false; cbn iota; change (1024 / 4) with 256); lia.
Qed.

(** C91. The size is what the caller says; it may not exceed what there is. *)
Theorem C91_getcwd_stays_in_buffer : forall buf size,
  (forall b, buf = Some b -> (size <= length b)%nat) ->
  exists ok e buf', sys_getcwd buf size = Ret (ok, e, buf') /\
    (ok = true <-> buf <> None /\ (2 <= size)%nat) /\
    (ok = false -> e = Some EINVAL /\ buf' = buf) /\
    (ok = true -> e = None /\ exists b b', buf = Some b /\ buf' = Some b' /\ length b' = length b /\
       firstn 2 b' = [47; 0] /\ skipn 2 b' = skipn 2 b).
Proof. exact getcwd_spec. Qed.
Print Assumptions C91_getcwd_stays_in_buffer.
Example C91_case : sys_getcwd (Some [7; 8; 9]) 2 = Ret (true, None, Some [47; 0; 9]) /\
  sys_getcwd (Some [7; 8; 9]) 1 = Ret (false, Some EINVAL, Some [7; 8; 9]).
Proof. split; reflexivity. Qed.

(** The clock of the board stands still: every call that succeeds gives the same time. *)
Theorem C91_clock_stands_still : forall tp r e tp', sys_gettimeofday tp = (r, e, tp') ->
  (tp = None /\ r = -1 /\ e = Some EINVAL /\ tp' = None) \/ (tp <> None /\ r = 0 /\ e = None /\ tp' = Some (0, 0)).
Proof. intros [x|] r e tp' H; cbn in H; injection H as <- <- <-; [right|left]; repeat split; auto; discriminate. Qed.
Print Assumptions C91_clock_stands_still.
Example C91_clock_case : sys_gettimeofday (Some (17, 4)) = (0, None, Some (0, 0)).
Proof. reflexivity. Qed.

(** C148. Whatever calls a program makes, the port gets what it prints and nothing else, in order; calls that cannot be served say so. *)
Theorem C148_console_of_a_program : forall cs fuel dev tr,
  match do_calls fuel dev cs tr with
  | None => ~ ready_within fuel 23 dev
  | Some UB => ~ Forall honest cs
  | Some (Ret (l, tr')) => (exists acc, tr' = tr ++ acc /\ sends (flat_map printed cs) acc) /\
      Forall2 (fun c a => (served c = true -> snd a = None /\ 0 <= fst a) /\ (served c = false -> reports_failure c a)) cs l
  end.
Proof. exact calls_spec. Qed.
Print Assumptions C148_console_of_a_program.
Example C148_case : Forall honest [C_open; C_write 1 (Some [104; 105; 33]) 2; C_getcwd (Some [7; 7; 7]) 3; C_putchar 266; C_close] /\
  do_calls 3 ex_device [C_open; C_write 1 (Some [104; 105; 33]) 2; C_getcwd (Some [7; 7; 7]) 3; C_putchar 266; C_close] [] =
    Some (Ret ([(-1, Some ENOENT); (0, None); (1, None); (0, None); (-1, Some EIO)],
      [RdStat 0x200000; RdStat 0x200000; RdStat 0xA00000; WrData 104; RdStat 0x200000; RdStat 0xA00000; WrData 105;
       RdStat 0x200000; RdStat 0xA00000; WrData 10])).
Proof. split; [repeat constructor|vm_compute; reflexivity]. Qed.
