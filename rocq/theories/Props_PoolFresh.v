(** C147: a stale exchange is the only thing that can go wrong when several threads use the pool. *)
From Coq Require Import ZArith Bool List Arith Lia.
From Verif Require Import Outcome PoolModel PoolConcModel PoolConcSpec PoolConcProofs PoolUseSpec PoolUseProofs PoolFreshSpec PoolFreshProofs
  Props_Pool Props_PoolUse.
Import ListNotations.
Open Scope nat_scope.

(** C147. Without stale exchanges everything users rely on holds, whatever calls overlap. *)
Theorem C147_enough : forall n s, 0 < n -> reachable_with fresh_rule n s -> pool_safe fresh_rule n s /\ ~ harm n s.
Proof. intros n s Hn R. pose proof (fresh_safe n s Hn R) as P. split; [exact P|]. intro H. exact (harm_unsafe n s H P). Qed.
Print Assumptions C147_enough.
(** C117. Whatever the rule, as long as no exchange was stale, one of the two accesses of any race is the read of a link by an allocate
    whose block another thread has taken meanwhile (or is returning). *)
Theorem C117_races_exactly : forall ok n s, 0 < n -> reachable_with fresh_rule n s ->
  (data_race ok s <->
   exists t t' b, t <> t' /\ pcs s t = ARead (At b) /\ ok (LRead t) s /\ plain_access ok s t' b true).
Proof.
  intros ok n s Hn [es R]. destruct (x_reach n es s Hn R) as [fr I].
  assert (K : forall x b, holds s x b = true -> In b (held s)) by (intros x b Hx; apply holds_in in Hx; apply in_map_iff; exists (x, b); auto).
  assert (L : forall x y b q, pcs s x = DLink b q -> holds s y b = true -> False).
  { intros x y b q E H. apply K in H. destruct (x_link _ _ _ _ I x b q E) as [F|[]]. exact (proj2 (x_apart _ _ _ _ I b F) H). }
  split.
  - intros (t & t' & b & w & N & A & A'). inversion A; subst; inversion A'; subst.
    + exists t', t, b. auto.
    + exfalso. apply N. eapply (x_link2 _ _ _ _ I); eassumption.
    + exfalso. eapply L; eassumption.
    + exists t', t, b. auto.
    + exfalso. eapply L; eassumption.
    + exfalso. apply N. eapply holds_unique; try eassumption. exact (x_held _ _ _ _ I).
  - intros (t & t' & b & N & E & O & A). exists t', t, b, false. split; [auto|]. split; [exact A|]. now apply access_read.
Qed.
Print Assumptions C117_races_exactly.
(** After a stale exchange, harm can follow without any further one: no weaker condition is enough. *)
Theorem C147_needed : forall n es s t s1, 0 < n -> run_with fresh_rule (cinit n) es s -> stale s t -> cstep (LCas t false) s = Step s1 ->
  exists es' s2, run_with fresh_rule s1 es' s2 /\ harm n s2.
Proof. exact stale_harms. Qed.
Print Assumptions C147_needed.
(** Both together: the first exchange after which harm can follow is the first that is stale. *)
Theorem C147_exact : forall n es s t s1, 0 < n -> run_with fresh_rule (cinit n) es s -> cstep (LCas t false) s = Step s1 ->
  (stale s t <-> exists es' s2, run_with fresh_rule s1 es' s2 /\ harm n s2).
Proof.
  intros n es s t s1 Hn R E. split; [intro T; now apply (stale_harms n es s t s1)|]. intros (es' & s2 & R' & H).
  destruct (x_reach n es s Hn R) as [fr I]. destruct (stale_dec n fr s t I) as [T|A]; [exact T|]. exfalso.
  apply (proj2 (C147_enough n s2 Hn (ex_intro _ _ (run_app _ _ _ _ _ _ (run_snoc _ _ _ _ _ _ R A E) R')))). exact H.
Qed.
Print Assumptions C147_exact.
(** Whatever threads do: if harm is done, an exchange before it was stale. *)
Theorem C147_culprit : forall n es s, 0 < n -> run_with (fun _ _ => True) (cinit n) es s -> harm n s ->
  exists es1 t es2 s1, es = es1 ++ Do (LCas t false) :: es2 /\ run_with fresh_rule (cinit n) es1 s1 /\ stale s1 t.
Proof.
  intros n es s Hn R H. destruct (first_stale n es s Hn R) as [F|F]; [|exact F].
  exfalso. apply (proj2 (C147_enough n s Hn (ex_intro _ _ F))). exact H.
Qed.
Print Assumptions C147_culprit.
(** Harm is what the safety of C112-C116 excludes. *)
Theorem C147_harm : forall n s, harm n s -> ~ pool_safe fresh_rule n s.
Proof. exact harm_unsafe. Qed.
Print Assumptions C147_harm.
(** The rules of C112-C116 leave no room for stale exchanges. *)
Theorem C147_rules : forall n es s, 0 < n -> run_with hazard_rule (cinit n) es s -> run_with fresh_rule (cinit n) es s.
Proof. exact hazard_fresh. Qed.
Print Assumptions C147_rules.

(** Thread 0 has loaded block 0 and its link when thread 1 takes the block, writes to it and returns it. The link is the same again when
    thread 0 exchanges: no harm is done, although rule 1 is broken. *)
Definition fresh_case : list event := map Do
  [ LStartAlloc 0; LLoad 0; LRead 0; LStartAlloc 1; LLoad 1; LRead 1; LCas 1 false; LWrite 1 0 9; LStartFree 1 0; LXchg 1; LLink 1;
    LCas 0 false ].
Example C147_case : exists s, run_with fresh_rule (cinit 3) fresh_case s /\ holders s = [(0, 0)] /\ pcs s 1 = Idle.
Proof. run_case 2 fresh_rule freshb freshb_ok fresh_case 3. Qed.
Example C147_case_not_hazard : exists s, run_with fresh_rule (cinit 3) (firstn 9 fresh_case) s /\
  pcs s 1 = DXchg 0 /\ pcs s 0 = ACas (At 0) (At 1).
Proof. run_case 2 fresh_rule freshb freshb_ok (firstn 9 fresh_case) 3. Qed.
Example C147_case_rule : forall s, pcs s 1 = DXchg 0 -> (exists q, pcs s 0 = ACas (At 0) q) -> ~ hazard_rule (LXchg 1) s.
Proof. intros s E H [N _]. apply (N 0 E 0). now right. Qed.
(** C117's race is one of these. *)
Example C117_race_case : exists s, run_with fresh_rule (cinit 2) race_schedule s /\
  pcs s 0 = ARead (At 0) /\ pcs s 1 = Idle /\ holds s 1 0 = true.
Proof. run_case 2 fresh_rule freshb freshb_ok race_schedule 2. Qed.
(** The exchange of thread 0 in C50's first schedule is stale: block 0 is linked to block 2 or to nothing by then, not to block 1. *)
Example C147_stale_case : exists s s1, run_with fresh_rule (cinit 3) (map Do (firstn 14 aba_schedule)) s /\
  stale s 0 /\ cstep (LCas 0 false) s = Step s1.
Proof.
  assert (C : exists s, run_with fresh_rule (cinit 3) (map Do (firstn 14 aba_schedule)) s /\
    pcs s 0 = ACas (At 0) (At 1) /\ chead s = At 0 /\ nth_error (cmem s) 0 = Some (CNext (At 2))).
  { run_case 2 fresh_rule freshb freshb_ok (map Do (firstn 14 aba_schedule)) 3. }
  destruct C as (s & R & Ep & Hh & En). exists s. eexists. split; [exact R|]. split.
  - exists 0, (At 1). split; [now split|]. intros [_ (c & Ec & Eq)]. rewrite En in Ec. injection Ec as <-. discriminate Eq.
  - cbn [cstep]. rewrite Ep, Hh. reflexivity.
Qed.
