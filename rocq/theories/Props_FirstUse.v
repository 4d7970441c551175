(** C118: the first use of the pool. *)
From Coq Require Import ZArith Bool List Arith Lia.
From Verif Require Import Outcome PoolModel PoolConcModel PoolConcSpec PoolConcProofs PoolUseSpec PoolUseProofs FirstUseModel FirstUseSpec
  FirstUseProofs.
Import ListNotations.
Open Scope Z_scope.

(** C118. Full claim: whatever threads call getReference first and however they overlap, a thread that has the reference sees a pool
    that has been constructed once and used since, [forall safe n s t, (0 < n)%nat -> first_use safe false ok n s -> places s t = Has ->
    reachable_with ok n (pool_of s)]. With -fno-threadsafe-statics it fails although every call of the pool itself runs alone: the pool is
    constructed again while a block is in use. *)
Definition twice : list flabel :=
  FEnter 0 :: FEnter 1 :: repeat (FBuild 0) 8 ++
  [ FUse (Do (LStartAlloc 0)); FUse (Do (LLoad 0)); FUse (Do (LRead 0)); FUse (Do (LCas 0 false)); FUse (Do (LWrite 0 0 7)) ] ++
  repeat (FBuild 1) 8 ++
  [ FUse (Do (LStartAlloc 1)); FUse (Do (LLoad 1)); FUse (Do (LRead 1)); FUse (Do (LCas 1 false)) ].
Theorem C118_first_use_refuted : exists s, frun false 2 twice (finit [CData 0; CData 0] Null) = FStep s /\
  holders (pool_of s) = [(1, 0); (0, 0)]%nat /\ nth_error (cmem (pool_of s)) 0 = Some (CNext (At 1)).
Proof. vm_compute. eauto. Qed.
Print Assumptions C118_first_use_refuted.

(** With thread-safe statics, or if no call begins while the construction is under way, it holds for every rule of use, so C112-C117 apply
    from the first use on. The constructor and the static never leave the storage; what
    undefined behaviour there is, is the pool's, after the first use. *)
Theorem C118_first_use_partial : forall safe alone ok n s, (0 < n)%nat -> safe = true \/ alone = true -> first_use safe alone ok n s ->
  (forall t, places s t = Has -> reachable_with ok n (pool_of s)) /\
  (forall l, fstep safe n l s = FCrash <-> exists e, l = FUse e /\ places s (actor e) = Has /\ happens e (pool_of s) = Crash).
Proof.
  intros safe alone ok n s Hn HS R. split.
  - intro t. now apply (first_use_inherits safe alone).
  - intro l. now apply (first_use_crash safe alone ok).
Qed.
Print Assumptions C118_first_use_partial.
(** Nobody waits for ever: a thread without the reference can enter or finds another one building, and that one is done after at most
    2 n + 4 steps of its own, after which everybody enters. *)
Theorem C118_no_deadlock : forall safe alone ok n s t, (0 < n)%nat -> safe = true \/ alone = true -> first_use safe alone ok n s ->
  (places s t = Outside -> (exists s', fstep safe n (FEnter t) s = FStep s') \/ exists t', building (places s t')) /\
  (building (places s t) ->
   exists k s', (k <= 2 * n + 4)%nat /\ frun safe n (repeat (FBuild t) k) s = FStep s' /\ places s' t = Has /\ pool_of s' = cinit n /\
     forall t', t' <> t -> exists s2, fstep safe n (FEnter t') s' = FStep s2 /\ places s2 t' = Has /\ pool_of s2 = cinit n).
Proof.
  intros safe alone ok n s t Hn HS R. split.
  - now apply (first_use_waits safe alone ok).
  - now apply (first_use_completes safe alone ok).
Qed.
Print Assumptions C118_no_deadlock.

(** Thread 0 builds a pool of two blocks in storage full of old data; thread 1 arrives meanwhile and has to wait. *)
Example C118_case :
  (exists s, frun true 2 (FEnter 0 :: repeat (FBuild 0) 3) (finit [CData 9; CData 9] (Wild 9)) = FStep s /\
     fstep true 2 (FEnter 1) s = FDisabled /\ building (places s 0%nat)) /\
  (exists s, frun true 2 (FEnter 0 :: repeat (FBuild 0) 8 ++ [FEnter 1; FUse (Do (LStartAlloc 1)); FUse (Do (LLoad 1))])
                  (finit [CData 9; CData 9] (Wild 9)) = FStep s /\
     places s 1%nat = Has /\ pcs (pool_of s) 1%nat = ARead (At 0)).
Proof. split; vm_compute; eexists; split; try reflexivity; auto. Qed.
Example C118_case_reachable : exists s, first_use true false serial_rule 2 s /\ places s 1%nat = Has.
Proof.
  assert (K : forall ls s s', first_use true false serial_rule 2 s ->
            forallb (fun l => match l with FUse _ => false | _ => true end) ls = true ->
            frun true 2 ls s = FStep s' -> first_use true false serial_rule 2 s').
  { intros ls. induction ls as [|l ls IH]; intros s s' R F E; cbn [frun forallb] in *; [injection E as <-; exact R|].
    apply andb_true_iff in F. destruct F as [F1 F2]. destruct (fstep true 2 l s) as [| |s1] eqn:E1; try discriminate E.
    apply (IH s1); auto. apply (first_step _ _ _ _ s l); auto. destruct l; auto; [discriminate|discriminate F1]. }
  assert (C : match frun true 2 (FEnter 0 :: repeat (FBuild 0) 8 ++ [FEnter 1]) (finit [CData 9; CData 9] (Wild 9)) with
              | FStep s => places s 1%nat = Has | _ => False end) by (vm_compute; reflexivity).
  destruct (frun true 2 (FEnter 0 :: repeat (FBuild 0) 8 ++ [FEnter 1]) (finit [CData 9; CData 9] (Wild 9))) as [| |s] eqn:E; try contradiction.
  exists s. split; [|exact C]. apply (K (FEnter 0 :: repeat (FBuild 0) 8 ++ [FEnter 1]) (finit [CData 9; CData 9] (Wild 9))); auto.
  now constructor.
Qed.
