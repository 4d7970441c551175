(** C64-C70, C75: groups of SocketCAN interfaces. *)
From Coq Require Import ZArith Bool String List Lia.
From Verif Require Import Outcome ResultModel CInt SatMathSpec SatMathModel TimeModel CanFrameModel CanFrameSpec
  SocketCanModel SocketCanSpec SocketCanHist GroupModel GroupSpec GroupProofs SatMathProofs Props_SocketCan.
Import ListNotations.
Open Scope Z_scope.

(** A kernel that accepts at most 512 filters, as Linux does, and a group. *)
Definition ex_sockopt (fs : list kfilter) (optlen : Z) : Z := if optlen <=? 4096 then 0 else -1.
Definition ex_filters : list filter := [Filter 0x123 0x1FFFFFFF; Filter 0x1F000000 0x1F000000].
Definition ex_group : group := [iface_make 0 "vcan0" 3; iface_make 1 "vcan1" 5; iface_make 2 "vcan2" 7].

(** C64. After a successful configuration with [n] filters whose masks select identifier bits, the kernel passes exactly the
    extended frames selected by one of them. *)
Theorem C64_filters_pass_exactly_selected_frames : forall ans fd cs n log log', (1 <= n)%nat -> Z.of_nat n < 2 ^ 29 ->
  Forall id_mask cs -> configureFilters ans fd (Some cs) n log = Ret (Success, log') ->
  exists fs, filters_of fd log' = Some fs /\
    (forall w, not_error w ->
       (kernel_passes fs w = true <-> is_extended w = true /\ Exists (selected w) (firstn n cs))) /\
    forall fd', fd' <> fd -> filters_of fd' log' = filters_of fd' log.
Proof. exact configured_passes_ids. Qed.
Print Assumptions C64_filters_pass_exactly_selected_frames.
(** With masks of any 32 bits: bit 29 makes an entry select nothing, bit 30 makes it reject remote frames, bit 31 has no
    effect. *)
Theorem C64_filters_with_flag_bits : forall ans fd cs n log log', (1 <= n)%nat -> Z.of_nat n < 2 ^ 29 ->
  Forall filter_typed cs -> configureFilters ans fd (Some cs) n log = Ret (Success, log') ->
  exists fs, filters_of fd log' = Some fs /\ length fs = n /\
    (forall w, not_error w -> (kernel_passes fs w = true <-> is_extended w = true /\
       Exists (fun f => selected w f /\ Z.testbit (flt_mask f) 29 = false /\
                        (Z.testbit (flt_mask f) 30 = true -> is_remote w = false)) (firstn n cs))) /\
    forall fd', fd' <> fd -> filters_of fd' log' = filters_of fd' log.
Proof. exact configured_passes. Qed.
Print Assumptions C64_filters_with_flag_bits.
(** A configuration that is refused changes no socket; one that stays inside its array is handed to the kernel once, and its
    answer decides between success and a failure. *)
Theorem C64_refused_changes_nothing : forall ans fd configs n log r log',
  configureFilters ans fd configs n log = Ret (r, log') -> isFailure r = true -> log' = log.
Proof. exact configure_refused. Qed.
Print Assumptions C64_refused_changes_nothing.
Theorem C64_outcomes : forall fd cs n, (1 <= n <= length cs)%nat -> Z.of_nat n < 2 ^ 29 ->
  exists fs, length fs = n /\ forall ans log,
    (ans fs (8 * Z.of_nat n) = 0 -> configureFilters ans fd (Some cs) n log = Ret (Success, (fd, fs) :: log)) /\
    (ans fs (8 * Z.of_nat n) <> 0 -> configureFilters ans fd (Some cs) n log = Ret (UnknownInternalError, log)).
Proof. exact configure_results. Qed.
Print Assumptions C64_outcomes.

(** Outside the range of C64: the length of 2^29 filters, in bytes, is 0 in a 32-bit socklen_t, and success is reported with
    no filter installed. *)
Theorem C64_too_many_filters : forall ans fd cs log n, Z.of_nat n = 2 ^ 29 -> (n <= length cs)%nat ->
  (forall fs, ans fs 0 = 0) ->
  exists log', configureFilters ans fd (Some cs) n log = Ret (Success, log') /\ filters_of fd log' = Some [].
Proof. intros ans fd cs log n N L A. apply configure_truncated; auto. Qed.
Print Assumptions C64_too_many_filters.
Example C64_case : Forall id_mask ex_filters /\
  match configureFilters ex_sockopt 3 (Some ex_filters) 2 [] with
  | Ret (r, log) => r = Success /\ match filters_of 3 log with
      | Some fs => kernel_passes fs (0x80000000 + 0x123) = true /\ kernel_passes fs 0x123 = false /\
                   kernel_passes fs (0x80000000 + 0x124) = false /\ kernel_passes fs (0x80000000 + 0x1FABCDEF) = true
      | None => False end
  | UB => False end.
Proof. split; [repeat constructor; cbn; lia|]. vm_compute. auto. Qed.

(** C65. *)
Theorem C65_empty_filter_list_blocks_everything : forall ans fd configs log, ans [] 0 = 0 ->
  exists log', configureFilters ans fd configs 0 log = Ret (Success, log') /\
    (exists fs, filters_of fd log' = Some fs /\ forall w, kernel_passes fs w = false) /\
    forall fd', fd' <> fd -> filters_of fd' log' = filters_of fd' log.
Proof. exact configure_empty. Qed.
Print Assumptions C65_empty_filter_list_blocks_everything.
Theorem C65_refused : forall ans fd configs log, ans [] 0 <> 0 -> configureFilters ans fd configs 0 log = Ret (UnknownInternalError, log).
Proof. intros ans fd configs log E. rewrite configure_zero. now rewrite (proj2 (Z.eqb_neq _ _) E). Qed.
Print Assumptions C65_refused.
Example C65_case : ex_sockopt [] 0 = 0 /\
  configureFilters ex_sockopt 5 None 0 [(5, [KFilter 0 0]); (3, [KFilter 1 1])] = Ret (Success, [(5, []); (5, [KFilter 0 0]); (3, [KFilter 1 1])]).
Proof. split; reflexivity. Qed.

(** C66. Full statement: for every n <> 0, [configureFilters ans fd None n log = Ret (BadArgument, log)]. *)
Theorem C66_null_array_refuted : exists n, (n <> 0)%nat /\ forall ans fd log,
  configureFilters ans fd None n log <> Ret (BadArgument, log).
Proof.
  exists 513%nat. split; [lia|]. intros ans fd log E.
  apply (proj1 (configure_null ans fd 513 log ltac:(lia))) in E. lia.
Qed.
Print Assumptions C66_null_array_refuted.
Theorem C66_null_array_iff : forall ans fd n log, (n <> 0)%nat ->
  (configureFilters ans fd None n log = Ret (BadArgument, log) <-> Z.of_nat n <= 512) /\
  (configureFilters ans fd None n log = UB <-> 512 < Z.of_nat n).
Proof. exact configure_null. Qed.
Print Assumptions C66_null_array_iff.
Example C66_case : configureFilters ex_sockopt 3 None 512 [] = Ret (BadArgument, []).
Proof. reflexivity. Qed.

(** C67. [j] is the number of interfaces that accepted. *)
Theorem C67_reconfigure_all_or_first_failure : forall g ans cs n log, (length g <= 255)%nat -> (n <= length cs)%nat ->
  Z.of_nat n < 2 ^ 29 -> NoDup (map getSocketDescriptor g) ->
  exists r log' j,
    (forall fuel, (length g < fuel)%nat -> reconfigureFilters fuel g ans (Some cs) n log = Some (Ret (r, log'))) /\
    (j <= length g)%nat /\
    (forall t s lg, nth_error g t = Some s -> (t < j)%nat ->
       exists lg', configureFilters (ans t) (getSocketDescriptor s) (Some cs) n lg = Ret (Success, lg')) /\
    (j = length g /\ r = Success \/
     exists s, nth_error g j = Some s /\ isFailure r = true /\
       forall lg, configureFilters (ans j) (getSocketDescriptor s) (Some cs) n lg = Ret (r, lg)) /\
    (forall t s, nth_error g t = Some s -> (t < j)%nat -> forall lg lg',
       configureFilters (ans t) (getSocketDescriptor s) (Some cs) n lg = Ret (Success, lg') ->
       filters_of (getSocketDescriptor s) log' = filters_of (getSocketDescriptor s) lg') /\
    (forall fd, (forall t s, nth_error g t = Some s -> (t < j)%nat -> getSocketDescriptor s <> fd) ->
       filters_of fd log' = filters_of fd log).
Proof. exact reconfigure_spec. Qed.
Print Assumptions C67_reconfigure_all_or_first_failure.
Theorem C67_reconfigure_null_array : forall g ans n log, (1 <= n)%nat -> Z.of_nat n <= 512 -> g <> [] ->
  forall fuel, (0 < fuel)%nat -> reconfigureFilters fuel g ans None n log = Some (Ret (BadArgument, log)).
Proof. exact reconfigure_null. Qed.
Print Assumptions C67_reconfigure_null_array.
(** The second of three sockets refuses. *)
Example C67_case : NoDup (map getSocketDescriptor ex_group) /\
  match reconfigureFilters 4 ex_group (fun t _ _ => if (t =? 1)%nat then -1 else 0) (Some ex_filters) 2 [] with
  | Some (Ret (r, log)) => r = UnknownInternalError /\ filters_of 3 log <> None /\ filters_of 5 log = None /\ filters_of 7 log = None
  | _ => False end.
Proof. split; [repeat constructor; cbn; intuition congruence|]. vm_compute. intuition congruence. Qed.

(** C68 for reconfigureFilters; startInterfaceGroup is in Props_Manager.v. Full statement: for every group some number of
    iterations suffices whatever the kernel answers. *)
Theorem C68_reconfigure_terminates_refuted : exists g configs n log, forall fuel,
  reconfigureFilters fuel g (fun _ _ _ => 0) configs n log = None.
Proof.
  exists (repeat (iface_make 0 "can" 3) 256), (Some []), 0%nat, []. intros fuel.
  apply reconfigure_diverges; try (rewrite repeat_length); cbn [length]; auto; lia.
Qed.
Print Assumptions C68_reconfigure_terminates_refuted.
Theorem C68_reconfigure_terminates_iff : forall g configs n log,
  (n <= match configs with Some cs => length cs | None => 0 end)%nat ->
  ((exists fuel, forall ans, reconfigureFilters fuel g ans configs n log <> None) <-> (length g <= 255)%nat).
Proof. exact reconfigure_bounded_iff. Qed.
Print Assumptions C68_reconfigure_terminates_iff.
Example C68_case : (2 <= length ex_filters)%nat /\ (length ex_group <= 255)%nat.
Proof. cbn. lia. Qed.

(** C69. Full statement: for every 0 <= t, select passes a timeout with [wait_ns req = 1000 * t]. *)
Theorem C69_select_waits_requested_time_refuted : forall P, wf_platform P -> forall ppoll g ignore,
  exists r req, select P ppoll g 1500000 ignore = Ret (r, req) /\ wait_ns req = 1000500000 /\ wait_ns req <> 1500000 * 1000.
Proof.
  intros P W ppoll g ignore. destruct (select_timeout P W ppoll g 1500000 ignore) as (r & req & E & S & N); [lia|].
  exists r, req. split; auto. unfold wait_ns. rewrite S, N. split; [reflexivity|]. vm_compute. discriminate.
Qed.
Print Assumptions C69_select_waits_requested_time_refuted.
Theorem C69_select_waits_requested_time_iff : forall P, wf_platform P -> forall ppoll g t ignore, 0 < t < 2 ^ 63 ->
  exists r req, select P ppoll g t ignore = Ret (r, req) /\ 0 <= pr_nsec req < 1000000000 /\
    (wait_ns req = t * 1000 <-> t mod 1000000 = 0) /\ wait_ns req <= t * 1000.
Proof.
  intros P W ppoll g t ignore T. destruct (select_timeout P W ppoll g t ignore T) as (r & req & E & S & N).
  exists r, req. pose proof (Z.div_mod t 1000000 ltac:(lia)). pose proof (Z.mod_pos_bound t 1000000 ltac:(lia)).
  unfold wait_ns. rewrite S, N. repeat split; auto; lia.
Qed.
Print Assumptions C69_select_waits_requested_time_iff.
(** A zero timeout is undefined behaviour, or, where abs of the most negative number wraps, an invalid timeout. *)
Theorem C69_zero_timeout_undefined : forall P, wf_platform P -> int_width P <= 64 -> abs_of_min P 64 = None -> forall ppoll g ignore,
  select P ppoll g 0 ignore = UB.
Proof. exact select_zero_undefined. Qed.
Print Assumptions C69_zero_timeout_undefined.
Theorem C69_zero_timeout_wrapping : forall P, wf_platform P -> int_width P <= 64 -> abs_of_min P 64 = Some (smin 64) ->
  forall ppoll g ignore,
  exists r req, select P ppoll g 0 ignore = Ret (r, req) /\ pr_sec req = 0 /\ pr_nsec req = - 2 ^ 63.
Proof. exact select_zero_wrapping. Qed.
Print Assumptions C69_zero_timeout_wrapping.
Example C69_case : wf_platform lp64 /\ abs_of_min lp64 64 = None /\ int_width lp64 <= 64.
Proof. vm_compute. intuition congruence. Qed.

(** C70. *)
Theorem C70_select_classifies : forall P ppoll g t ignore r req, select P ppoll g t ignore = Ret (r, req) ->
  let res := fst (ppoll req) in
  let revents := snd (ppoll req) in
  length revents = length g ->
  (r = SuccessTimeout <-> res = 0) /\ (r = Failure <-> res < 0) /\
  (r = SuccessPartial <-> 0 < res /\ Exists trouble revents) /\
  (r = Success <-> 0 < res /\ ~ Exists trouble revents) /\
  map fst (pr_fds req) = map getSocketDescriptor g /\
  forall d ev, In (d, ev) (pr_fds req) -> Z.testbit ev 0 = true /\ Z.testbit ev 1 = true /\ Z.testbit ev 2 = negb ignore /\
    forall b, 2 < b -> Z.testbit ev b = false.
Proof. exact select_classifies. Qed.
Print Assumptions C70_select_classifies.
Example C70_case : match select lp64 (fun req => (2, [POLLIN; POLLHUP; 0])) ex_group 100000 true with
  | Ret (r, req) => r = SuccessPartial /\ pr_fds req = [(3, 3); (5, 3); (7, 3)] | UB => False end.
Proof. vm_compute. auto. Qed.

(** C75. *)
Theorem C75_write_reaches_addressed_interface : forall k g i s fs n c g' r c' sent, nth_error g (Z.to_nat i) = Some s -> 0 <= i ->
  group_write k g i fs n c = Ret (g', r, c', sent) ->
  exists w, write k s fs n = Ret w /\ r = wr_result w /\ c' = wr_count w /\ sent = wr_sent w /\
    nth_error g' (Z.to_nat i) = Some (wr_if w) /\ length g' = length g /\
    forall j, j <> Z.to_nat i -> nth_error g' j = nth_error g j.
Proof. exact group_write_addressed. Qed.
Print Assumptions C75_write_reaches_addressed_interface.
Theorem C75_read_reaches_addressed_interface : forall res errno msgs g i s out c g' r c' fs,
  nth_error g (Z.to_nat i) = Some s -> 0 <= i -> group_read res errno msgs g i out c = Ret (g', r, c', fs) ->
  exists rd, read res errno msgs s out = Ret rd /\ r = rd_result rd /\ c' = Z.of_nat (rd_count rd) /\ fs = rd_frames rd /\
    nth_error g' (Z.to_nat i) = Some (rd_if rd) /\ length g' = length g /\
    forall j, j <> Z.to_nat i -> nth_error g' j = nth_error g j.
Proof. exact group_read_addressed. Qed.
Print Assumptions C75_read_reaches_addressed_interface.
(** Indices below the count address an interface, others are rejected and change nothing. *)
Theorem C75_index_range : forall g i, (length g <= 255)%nat -> 0 <= i <= 255 ->
  getInterfaceCount g = Z.of_nat (length g) /\
  (i < getInterfaceCount g -> exists s, nth_error g (Z.to_nat i) = Some s /\ group_getInterface g i = Some s /\
     group_getInterfaceName g i = getInterfaceName s) /\
  (getInterfaceCount g <= i ->
     (forall k fs n c, group_write k g i fs n c = Ret (g, BadArgument, c, None)) /\
     (forall res errno msgs out c, group_read res errno msgs g i out c = Ret (g, BadArgument, c, out)) /\
     group_getInterface g i = None /\ group_getInterfaceName g i = "<bad index>"%string).
Proof.
  intros g i G I. assert (C : getInterfaceCount g = Z.of_nat (length g)) by (unfold getInterfaceCount; lia). rewrite C.
  split; [reflexivity|]. split; [intros; apply group_good_index; lia|apply group_bad_index].
Qed.
Print Assumptions C75_index_range.
(** In larger groups the count is 255 and index 255, which is not below it, still reaches an interface. *)
Theorem C75_index_255_in_large_groups : forall g, (256 <= length g)%nat ->
  getInterfaceCount g = 255 /\ exists s, nth_error g 255 = Some s /\ group_getInterface g 255 = Some s.
Proof.
  intros g G. unfold getInterfaceCount. split; [lia|].
  destruct (group_good_index g 255) as (s & A & B & _); [lia|]. exists s. auto.
Qed.
Print Assumptions C75_index_255_in_large_groups.
Example C75_case : match group_write (ex_kernel 2 0) ex_group 1 ex_frames 2 0 with
  | Ret (g, r, c, _) => r = Success /\ c = 2 /\ nth_error g 0 = nth_error ex_group 0 | UB => False end.
Proof. vm_compute. auto. Qed.
