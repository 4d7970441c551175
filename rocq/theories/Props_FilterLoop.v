(** C154: filter arrays of any length. *)
From Coq Require Import ZArith Bool String List Lia.
From Verif Require Import Outcome ResultModel CanFrameModel SocketCanModel GroupModel GroupProofs OomModel FilterLoopModel FilterLoopProofs.
Import ListNotations.
Open Scope Z_scope.

(** C154. Full statement: with memory, configuring filters returns a result for every readable array, whatever its length. *)
Theorem C154_any_length_refuted : exists cs, forall ans fd log fuel r log',
  configure_any (fun _ => false) fuel ans fd (Some cs) (Z.of_nat (length cs)) log <> Some (Ret (Returned (r, log'))).
Proof.
  exists (repeat (Filter 1 2) (Z.to_nat (2 ^ 32))). intros ans fd log fuel r log'. rewrite repeat_length, Z2Nat.id by lia.
  unfold configure_any. change (2 ^ 32 =? 0) with false. cbn [andb].
  destruct (convert_loop _ _ _ _ _ _) as [[[fs|e]|]|] eqn:E; try discriminate.
  exfalso. revert E. apply convert_never_returns; lia.
Qed.
Print Assumptions C154_any_length_refuted.

(** The call ends, whatever the array, its length and the memory: with a result, an exception or undefined behaviour. *)
Theorem C154_ends : forall fails ans fd configs num log, exists fuel r, forall m,
  configure_any fails (fuel + m) ans fd configs num log = Some r.
Proof.
  intros fails ans fd configs num log. unfold configure_any.
  destruct (_ && _ && _); [exists 0%nat; eexists; reflexivity|].
  destruct (num =? 0); [exists 0%nat; destruct (negb _); eexists; reflexivity|].
  destruct configs as [cs|]; [|exists 0%nat; eexists; reflexivity].
  destruct (convert_ends_from (Z.to_nat (2 ^ 60)) fails 0 num cs []) as (r & R); [cbn; change vmax with (2 ^ 60 - 1); lia..|].
  exists (Z.to_nat (2 ^ 60)). destruct r as [[fs|e]|].
  - destruct (negb (ans fs ((sizeof_can_filter * Z.of_nat (length fs)) mod 2 ^ 32) =? 0)) eqn:A; eexists; intros m; rewrite R, A; reflexivity.
  - eexists. intros m. rewrite R. reflexivity.
  - eexists. intros m. rewrite R. reflexivity.
Qed.
Print Assumptions C154_ends.

(** Below 2^32 filters it does, with memory, what GroupModel.v says. *)
Theorem C154_below : forall ans fd configs num log fuel, Z.of_nat num < 2 ^ 32 -> (num < fuel)%nat ->
  configure_any (fun _ => false) fuel ans fd configs (Z.of_nat num) log =
  Some (match configureFilters ans fd configs num log with Ret (r, log') => Ret (Returned (r, log')) | UB => UB end).
Proof.
  intros ans fd configs num log fuel N F. unfold configure_any, configureFilters.
  replace (Z.of_nat num =? 0) with (num =? 0)%nat by (destruct num; reflexivity).
  destruct (_ && _ && _); [reflexivity|]. destruct (num =? 0)%nat; [destruct (negb _); reflexivity|].
  destruct configs as [cs|]; [|reflexivity].
  assert (E : convert_loop (fun _ => false) fuel 0 (Z.of_nat num) cs [] =
              Some (match convert_filters num cs with Ret fs => Ret (Returned fs) | UB => UB end)).
  { destruct (Nat.le_gt_cases num (length cs)) as [H|H].
    - rewrite convert_all_firstn by lia. rewrite Nat2Z.id. rewrite convert_all; rewrite ?firstn_length; cbn [length]; try lia.
      destruct (Z.leb_spec (Z.of_nat num) (Z.of_nat (Nat.min num (length cs)))); [|lia].
      rewrite convert_eq by exact H. cbn [app Z.to_nat skipn]. rewrite Z.sub_0_r, Nat2Z.id, firstn_firstn, Nat.min_id. reflexivity.
    - rewrite convert_all; cbn [length]; try lia. rewrite convert_oob by exact H.
      destruct (Z.leb_spec (Z.of_nat num) (Z.of_nat (length cs))); [lia|reflexivity]. }
  rewrite E. destruct (convert_filters num cs) as [fs|]; cbn [bind]; [|reflexivity]. destruct (negb _); reflexivity.
Qed.
Print Assumptions C154_below.

(** From 2^32 filters on it throws, without a system call and with the filters as they were: bad_alloc, or length_error if
    there is memory for all that the vector can hold. *)
Theorem C154_above : forall fails ans fd cs num log, 2 ^ 32 <= num -> 2 ^ 32 <= Z.of_nat (length cs) ->
  exists e fuel, (forall m, configure_any fails (fuel + m) ans fd (Some cs) num log = Some (Ret (Threw (e, log)))) /\
    (e = LengthError <-> forall n, 0 <= n < 2 ^ 60 - 1 -> fails n = false).
Proof.
  intros fails ans fd cs num log N L. unfold configure_any. cbn [andb].
  destruct (Z.eqb_spec num 0) as [Z0|_]; [lia|].
  assert (K : exists k, Z.of_nat k = 2 ^ 60) by (exists (Z.to_nat (2 ^ 60)); apply Z2Nat.id; lia). destruct K as (k & K).
  destruct (convert_ends_from k fails 0 num cs []) as (r & R); [cbn; change vmax with (2 ^ 60 - 1); lia..|].
  pose proof (R 0%nat) as R0. rewrite Nat.add_0_r in R0.
  destruct r as [[fs|e]|].
  - exfalso. revert R0. apply convert_never_returns; lia.
  - exists e, k. split; [intros m; rewrite R; reflexivity|]. split.
    + intros ->. intros n B. apply (convert_length_error _ _ _ _ _ _ R0 n). cbn [length]. change vmax with (2 ^ 60 - 1). lia.
    + intros A. destruct e; [|reflexivity]. exfalso. destruct (convert_bad_alloc _ _ _ _ _ _ R0) as (n & B & V & T).
      cbn [length] in B. change vmax with (2 ^ 60 - 1) in V. rewrite A in T by lia. discriminate.
  - exfalso. revert R0. apply convert_reads_inside; lia.
Qed.
Print Assumptions C154_above.

(** So there is a result exactly below 2^32. *)
Theorem C154_result_iff : forall ans fd cs num log, 0 <= num <= Z.of_nat (length cs) ->
  ((exists fuel r log', configure_any (fun _ => false) fuel ans fd (Some cs) num log = Some (Ret (Returned (r, log')))) <-> num < 2 ^ 32).
Proof.
  intros ans fd cs num log N. split.
  - intros (fuel & r & log' & E). destruct (Z.lt_ge_cases num (2 ^ 32)) as [H|H]; [exact H|]. exfalso. revert E.
    unfold configure_any. cbn [andb]. destruct (Z.eqb_spec num 0) as [Z0|_]; [lia|].
    destruct (convert_loop _ _ _ _ _ _) as [[[fs|e]|]|] eqn:E; try discriminate.
    exfalso. revert E. apply convert_never_returns; lia.
  - intros H. pose proof (C154_below ans fd (Some cs) (Z.to_nat num) log (S (Z.to_nat num))) as B.
    rewrite Z2Nat.id in B by lia. specialize (B H (Nat.lt_succ_diag_r _)).
    unfold configureFilters in B. cbn [andb] in B. destruct (Z.to_nat num =? 0)%nat eqn:Z0.
    + exists (S (Z.to_nat num)). rewrite B. destruct (negb _); eauto.
    + rewrite convert_eq in B by lia. cbn [bind] in B. exists (S (Z.to_nat num)). rewrite B. destruct (negb _); eauto.
Qed.
Print Assumptions C154_result_iff.
Example C154_case :
  configure_any (fun _ => false) 9 (fun fs len => len - 24) 3 (Some [Filter 1 2; Filter 3 4; Filter 5 6]) 3 [] =
    Some (Ret (Returned (Success, [(3, [KFilter 2147483649 2147483650; KFilter 2147483651 2147483652; KFilter 2147483653 2147483654])]))) /\
  configure_any (fun n => 1 <? n) 9 (fun _ _ => 0) 3 (Some [Filter 1 2; Filter 3 4; Filter 5 6]) 3 [] = Some (Ret (Threw (BadAlloc, []))) /\
  2 ^ 32 <= Z.of_nat (length (repeat (Filter 1 2) (Z.to_nat (2 ^ 32)))).
Proof. split; [reflexivity|]. split; [reflexivity|]. rewrite repeat_length, Z2Nat.id; lia. Qed.
