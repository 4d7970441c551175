(** C164: what the C++ memory model says about blocks that go from thread to thread. *)
From Coq Require Import ZArith Bool List Arith Lia Relations.
From Verif Require Import Outcome PoolModel PoolConcModel PoolConcSpec PoolConcProofs PoolUseSpec PoolUseProofs PoolFreshSpec PoolFreshProofs
  Props_Pool PoolOrderModel PoolOrderSpec PoolOrderProofs.
From Verif Require Props_PoolUse.
Import ListNotations.
Open Scope nat_scope.

(** A history from a list of moves, for any number of blocks; [init] says how the first of them are linked. *)
Ltac play_from init k ok okb proof ms n :=
  let q := fresh "q" in let m := fresh "m" in let Ei := fresh "Ei" in let C := fresh "C" in
  destruct (init : exists q m, cinit n = _) as (q & m & Ei);
  match goal with |- exists tr s, _ /\ @?Q tr s =>
    assert (C : match play (okb k) ms (cinit n) with Some (tr, s) => Q tr s | None => False end);
    [rewrite Ei; match goal with |- match ?p with _ => _ end => let v := eval vm_compute in p in change p with v end; cbv beta iota|
     let r := fresh "r" in let tr := fresh "tr" in let E := fresh "E" in
     destruct (play (okb k) ms (cinit n)) as [[tr r]|] eqn:E; [|contradiction];
     exists tr, r; split; [|exact C];
     exact (play_history ok (okb k) k n (proof k) ms [] (cinit n) tr r (cinit_idle n k) eq_refl (history_nil ok n) E)]
  end.

(** C164. Full claim: in every execution the accesses to a block's bytes, by the pool and by those who hold it, are ordered by
    happens-before, so that there is no data race. It is false even if the calls of different threads never overlap: deallocate stores the
    link after the exchange that publishes the block, and nothing orders this store before the read by the thread that gets the block. *)
Definition returned_moves : list move := map (fun l => Ev (Do l))
  [ LStartAlloc 1; LLoad 1; LRead 1; LCas 1 false; LWrite 1 0 9; LStartFree 1 0; LXchg 1; LLink 1;
    LStartAlloc 0; LLoad 0; LRead 0 ].
Theorem C164_race_free_refuted : forall n, 0 < n ->
  exists tr s, history serial_rule n tr s /\
    race tr /\ nth_error tr 4 = Some (Client 1 0 true) /\ nth_error tr 7 = Some (Link 1 0 true) /\ nth_error tr 10 = Some (Link 0 0 false).
Proof.
  intros n Hn. play_from (cinit_one n Hn) 2 serial_rule serialb serialb_ok returned_moves n.
  split; [|repeat split]. exists 7, 10, (Link 1 0 true), (Link 0 0 false). repeat split; try lia.
  - cbn. lia.
  - exists 0, true, false. repeat split; eexists; left; reflexivity.
  - intro H. revert H. apply (last_not_known _ 7 (Link 1 0 true)); try reflexivity; try discriminate.
    intros j c L E. do 11 (destruct j as [|j]; [try lia; injection E as <-; cbn; lia|]). destruct j; discriminate.
Qed.
Print Assumptions C164_race_free_refuted.

(** More generally: the last link that a thread stores races with every access of another thread to that block. *)
Theorem C164_last_return : forall tr i j t b c w, i < j -> nth_error tr i = Some (Link t b true) ->
  (forall k a, i < k -> nth_error tr k = Some a -> made_by a <> t) ->
  nth_error tr j = Some c -> touches c b w -> race tr.
Proof.
  intros tr i j t b c w L E N F T. exists i, j, (Link t b true), c. repeat split; auto.
  - intro X. apply (N j c L F). symmetry. exact X.
  - exists b, true, w. repeat split; [eexists; left; reflexivity|exact T].
  - apply (last_not_known tr i (Link t b true) E); try discriminate. exact N.
Qed.
Print Assumptions C164_last_return.

(** Exactly when it is true, if allocations happen one at a time and do not read links while a deallocate has yet to store one: all that is
    needed is that the stores of links are ordered before the reads by other threads. *)
Theorem C164_race_free_iff_partial : forall n tr s, 0 < n -> history one_allocator_rule n tr s -> (race_free tr <-> reads_ordered tr).
Proof. intros n tr s Hn H. split; [apply free_reads|]. exact (one_race_free_hb n tr s Hn H). Qed.
Print Assumptions C164_race_free_iff_partial.

(** If allocations overlap, as rule 1 (C112) allows, their reads race even if no block is ever returned: with the thread that gets the
    block and writes to it. *)
Definition alone_moves : list move := map (fun l => Ev (Do l))
  [ LStartAlloc 0; LLoad 0; LRead 0; LStartAlloc 1; LLoad 1; LRead 1; LCas 1 false; LWrite 1 0 9 ].
Theorem C164_allocations_alone_refuted : forall n, 0 < n ->
  exists tr s, history hazard_rule n tr s /\
    race tr /\ (forall t b, ~ In (Link t b true) tr) /\ nth_error tr 2 = Some (Link 0 0 false) /\ nth_error tr 7 = Some (Client 1 0 true).
Proof.
  intros n Hn. play_from (cinit_one n Hn) 2 hazard_rule Props_PoolUse.hazardb Props_PoolUse.hazardb_ok alone_moves n.
  split; [|split; [intros t b H; repeat (destruct H as [H|H]; [discriminate|]); destruct H|split; reflexivity]].
  exists 2, 7, (Link 0 0 false), (Client 1 0 true). repeat split; try lia.
  - cbn. lia.
  - exists 0, false, true. repeat split; eexists; [left|right]; reflexivity.
  - intro H. revert H. apply (last_not_known _ 2 (Link 0 0 false)); try reflexivity; try discriminate.
    intros j c L E. do 8 (destruct j as [|j]; [try lia; injection E as <-; cbn; lia|]). destruct j; discriminate.
Qed.
Print Assumptions C164_allocations_alone_refuted.
(** Exactly when there is no race then: if each of these reads is ordered with what it conflicts with. All other accesses are ordered if these
    are. *)
Theorem C164_overlapping_iff_partial : forall n tr s, 0 < n -> history hazard_rule n tr s -> (race_free tr <-> link_reads_ordered tr).
Proof. intros n tr s Hn H. split; [apply free_link_reads|]. exact (hazard_race_free n tr s Hn H). Qed.
Print Assumptions C164_overlapping_iff_partial.
(** Two allocations overlap; thread 1 waits for thread 0 before it writes to the block, and 0 for 1 before it allocates again. *)
Definition waiting_moves : list move :=
  map (fun l => Ev (Do l)) [ LStartAlloc 0; LLoad 0; LRead 0; LStartAlloc 1; LLoad 1; LRead 1; LCas 1 false; LCas 0 false; LLoad 0; LRead 0;
    LCas 0 false ] ++ [Sync 0 1] ++
  map (fun l => Ev (Do l)) [ LWrite 1 0 7; LStartFree 1 0; LXchg 1; LLink 1 ] ++ [Sync 1 0] ++
  map (fun l => Ev (Do l)) [ LStartAlloc 0; LLoad 0; LRead 0; LCas 0 false; LWrite 0 0 8 ].
Definition plainb (a : action) : bool := match a with Link _ _ _ | Client _ _ _ => true | _ => false end.
Definition blockb (a : action) : nat := match a with Link _ b _ | Client _ b _ => b | _ => 0 end.
Definition storesb (a : action) : bool := match a with Link _ _ w | Client _ _ w => w | _ => false end.
Definition conflictb (a c : action) : bool :=
  plainb a && plainb c && (blockb a =? blockb c) && (storesb a || storesb c) && negb (made_by a =? made_by c).
Lemma conflictb_ok : forall a c, conflict a c -> conflictb a c = true.
Proof.
  intros a c (N & b & w & w' & [t T] & [t' T'] & W). apply Nat.eqb_neq in N. unfold conflictb. rewrite N.
  destruct T as [T|T], T' as [T'|T']; subst a c; cbn [plainb blockb storesb]; rewrite W, Nat.eqb_refl; reflexivity.
Qed.
Example C164_overlapping_case : exists tr s, history hazard_rule 2 tr s /\ link_reads_ordered tr /\ race_free tr /\
  nth_error tr 2 = Some (Link 0 0 false) /\ nth_error tr 12 = Some (Client 1 0 true) /\
  nth_error tr 15 = Some (Link 1 0 true) /\ nth_error tr 19 = Some (Link 0 0 false) /\ nth_error tr 21 = Some (Client 0 0 true).
Proof.
  destruct (play (Props_PoolUse.hazardb 2) waiting_moves (cinit 2)) as [[tr s]|] eqn:E; [|vm_compute in E; discriminate].
  assert (H : history hazard_rule 2 tr s).
  { exact (play_history hazard_rule (Props_PoolUse.hazardb 2) 2 2 (Props_PoolUse.hazardb_ok 2) waiting_moves [] (cinit 2) tr s (cinit_idle 2 2) eq_refl
      (history_nil _ _) E). }
  exists tr, s. split; [exact H|].
  assert (P : all_pairs tr conflictb = true /\ nth_error tr 2 = Some (Link 0 0 false) /\ nth_error tr 12 = Some (Client 1 0 true) /\
    nth_error tr 15 = Some (Link 1 0 true) /\ nth_error tr 19 = Some (Link 0 0 false) /\ nth_error tr 21 = Some (Client 0 0 true)).
  { vm_compute in E. injection E as <- _. repeat split. }
  destruct P as [P Q].
  assert (R : link_reads_ordered tr).
  { intros i j a c L Ei Ej C _. apply (all_pairs_hb tr _ P i j a c L Ei Ej). now apply conflictb_ok. }
  split; [exact R|]. split; [|exact Q]. exact (proj2 (C164_overlapping_iff_partial 2 tr s ltac:(lia) H) R).
Qed.

(** A lock around the calls is enough. *)
Theorem C164_locked_partial : forall n tr s, 0 < n -> history serial_rule n tr s -> calls_ordered tr -> race_free tr.
Proof. exact locked_free. Qed.
Print Assumptions C164_locked_partial.

(** What a thread did with a block happens before what the next holder does with it, without any rule about the calls as long as no exchange
    is stale (C147): *)
Theorem C164_clients_partial : forall n tr s, 0 < n -> history fresh_rule n tr s ->
  forall i j t t' b w w', i < j -> nth_error tr i = Some (Client t b w) -> nth_error tr j = Some (Client t' b w') -> happens_before tr i j.
Proof. exact clients_ordered. Qed.
Print Assumptions C164_clients_partial.
(** with one, two threads may hold a block and race. *)
Definition shared_moves : list move := map (fun l => Ev (Do l)) aba_schedule ++ [Ev (Do (LWrite 1 1 9)); Look 0 1].
Theorem C164_clients_refuted : forall n, 2 <= n ->
  exists tr s, history (fun _ _ => True) n tr s /\
    exists i j, i < j /\ nth_error tr i = Some (Client 1 1 true) /\ nth_error tr j = Some (Client 0 1 false) /\ ~ happens_before tr i j.
Proof.
  intros n Hn. pose (all := fun (_ : nat) (_ : label) (_ : cstate) => true).
  assert (P : forall k l s, idle_from k s -> all k l s = true -> (fun (_ : label) (_ : cstate) => True) l s) by (intros; exact Logic.I).
  play_from (cinit_two n Hn) 2 (fun (_ : label) (_ : cstate) => True) all P shared_moves n.
  exists 19, 20. repeat split; try lia. intro H. revert H. apply (last_not_known _ 19 (Client 1 1 true)); try reflexivity; try discriminate.
  intros j c L E. do 21 (destruct j as [|j]; [try lia; injection E as <-; cbn; lia|]). destruct j; discriminate.
Qed.
Print Assumptions C164_clients_refuted.

(** The threads take turns: 1 returns a block, gives up the lock, 0 takes it and allocates; the block goes on to 2, who reads it. *)
Definition turns_moves : list move :=
  map (fun l => Ev (Do l)) [ LStartAlloc 1; LLoad 1; LRead 1; LCas 1 false; LWrite 1 0 7; LStartFree 1 0; LXchg 1; LLink 1 ] ++ [Sync 1 0] ++
  map (fun l => Ev (Do l)) [ LStartAlloc 0; LLoad 0; LRead 0; LCas 0 false; LWrite 0 0 8 ] ++ [Ev (Give 0 2 0); Look 2 0].
Definition of_poolb (a : action) : bool := match a with Atomic _ _ | Link _ _ _ => true | _ => false end.
Definition callb (a : action) : bool := match a with Call _ => true | _ => false end.
Example C164_locked_case : exists tr s, history serial_rule 2 tr s /\
  calls_ordered tr /\ nth_error tr 7 = Some (Link 1 0 true) /\ nth_error tr 11 = Some (Link 0 0 false) /\ nth_error tr 15 = Some (Client 2 0 false).
Proof.
  assert (H2 : 1 <= 2) by lia.
  destruct (play (serialb 3) turns_moves (cinit 2)) as [[tr s]|] eqn:E; [|vm_compute in E; discriminate].
  exists tr, s. split; [exact (play_history serial_rule (serialb 3) 3 2 (serialb_ok 3) turns_moves [] (cinit 2) tr s (cinit_idle 2 3) eq_refl (history_nil _ _) E)|].
  assert (P : all_pairs tr (fun a c => of_poolb a && callb c) = true /\
              nth_error tr 7 = Some (Link 1 0 true) /\ nth_error tr 11 = Some (Link 0 0 false) /\ nth_error tr 15 = Some (Client 2 0 false)).
  { vm_compute in E. injection E as <- _. repeat split. }
  destruct P as [P Q]. split; [|exact Q]. intros i j a t L Ei Ej O. apply (all_pairs_hb tr _ P i j a (Call t) L Ei Ej).
  destruct a; try contradiction; reflexivity.
Qed.
(** Without the lock, the second return of thread 1 makes the first known: thread 0 gets the blocks in an order in which only one is racy. *)
Definition twice_moves : list move := map (fun l => Ev (Do l))
  [ LStartAlloc 1; LLoad 1; LRead 1; LCas 1 false; LStartAlloc 1; LLoad 1; LRead 1; LCas 1 false; LWrite 1 0 7;
    LStartFree 1 0; LXchg 1; LLink 1; LStartFree 1 1; LXchg 1; LLink 1;
    LStartAlloc 0; LLoad 0; LRead 0; LCas 0 false; LStartAlloc 0; LLoad 0; LRead 0; LCas 0 false; LWrite 0 0 8 ].
Example C164_iff_case : exists tr s, history one_allocator_rule 2 tr s /\
  nth_error tr 11 = Some (Link 1 0 true) /\ nth_error tr 21 = Some (Link 0 0 false) /\ happens_before tr 11 21 /\
  nth_error tr 14 = Some (Link 1 1 true) /\ nth_error tr 17 = Some (Link 0 1 false) /\ ~ happens_before tr 14 17 /\ ~ race_free tr.
Proof.
  destruct (play (serialb 2) twice_moves (cinit 2)) as [[tr s]|] eqn:E; [|vm_compute in E; discriminate].
  exists tr, s. split.
  { apply (serial_history 2 tr s).
    exact (play_history serial_rule (serialb 2) 2 2 (serialb_ok 2) twice_moves [] (cinit 2) tr s (cinit_idle 2 2) eq_refl (history_nil _ _) E). }
  vm_compute in E. injection E as <- _.
  match goal with |- context [happens_before ?x 14 17] => set (tr := x) end.
  assert (N : ~ happens_before tr 14 17).
  { apply (last_not_known tr 14 (Link 1 1 true)); try reflexivity; try discriminate.
    intros j c L F. do 24 (destruct j as [|j]; [try lia; injection F as <-; cbn; lia|]). destruct j; discriminate. }
  repeat split; auto.
  - apply (reached_hb tr 11 22 21). vm_compute. auto.
  - intro F. apply N. apply (F 14 17 (Link 1 1 true) (Link 0 1 false)); try reflexivity; [lia|]. split; [cbn; lia|].
    exists 1, true, false. repeat split; eexists; left; reflexivity.
Qed.
(** Thread 0 has read the link of block 0 when thread 1 takes it, writes to it and returns it: overlapping calls, no stale exchange. *)
Example C164_clients_case : exists tr s, history fresh_rule 3 tr s /\
  nth_error tr 7 = Some (Client 1 0 true) /\ nth_error tr 12 = Some (Client 0 0 true) /\ happens_before tr 7 12.
Proof.
  pose (ms := map (fun l => Ev (Do l))
    [ LStartAlloc 0; LLoad 0; LRead 0; LStartAlloc 1; LLoad 1; LRead 1; LCas 1 false; LWrite 1 0 9; LStartFree 1 0; LXchg 1; LLink 1; LCas 0 false;
      LWrite 0 0 5 ]).
  destruct (play (freshb 2) ms (cinit 3)) as [[tr s]|] eqn:E; [|vm_compute in E; discriminate].
  assert (H : history fresh_rule 3 tr s).
  { exact (play_history fresh_rule (freshb 2) 2 3 (freshb_ok 2) ms [] (cinit 3) tr s (cinit_idle 3 2) eq_refl (history_nil _ _) E). }
  exists tr, s. split; [exact H|].
  assert (Q : nth_error tr 7 = Some (Client 1 0 true) /\ nth_error tr 12 = Some (Client 0 0 true)) by (vm_compute in E; injection E as <- _; split; reflexivity).
  destruct Q as [Q1 Q2]. repeat split; auto. assert (L : 7 < 12) by lia.
  exact (C164_clients_partial 3 tr s ltac:(lia) H 7 12 1 0 0 true true L Q1 Q2).
Qed.
Example C164_last_return_case : exists tr, nth_error tr 7 = Some (Link 1 0 true) /\ race tr /\ exists s, history serial_rule 1 tr s.
Proof.
  destruct (C164_race_free_refuted 1 ltac:(lia)) as (tr & s & H & R & _ & E & F). exists tr. eauto.
Qed.
