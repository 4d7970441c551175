(** C165: the pool on a machine with store buffers. *)
From Coq Require Import ZArith Bool List Arith Lia.
From Verif Require Import Outcome CanFrameModel PoolModel PoolConcModel PoolConcSpec PoolConcProofs PoolUseSpec PoolUseProofs PoolFreshSpec PoolFreshProofs
  PoolTsoModel PoolTsoSpec PoolTsoProofs.
From Verif Require PoolLinSpec PoolLinProofs Props_PoolLin.
Import ListNotations.
Open Scope nat_scope.

Ltac now_in_order := intros t0 k0 H0; cbn [In] in H0; repeat (destruct H0 as [H0|H0]; [first [discriminate H0|now injection H0 as _ <-]|]); destruct H0.

(** Full statement: forall n es s, 0 < n -> in_order es -> trun (plainly serial_rule) n es s -> exists c, run_with serial_rule (cinit n) (program es) c /\ like s c.
    (With calls that do not overlap, a machine with store buffers behaves as one without.) Refuted: *)

(** Calls that do not overlap end in a read through a pointer that is no block. *)
Theorem C165_pointer_refuted : forall n, 0 < n ->
  exists es s e, in_order es /\ trun (plainly serial_rule) n es s /\ tallowed (plainly serial_rule) e s /\ tstep e s = TCrash.
Proof.
  intros n Hn. destruct (cinit_one n Hn) as (q & r & Ei).
  exists [TDo (Do (LStartAlloc 1)); TDo (Do (LLoad 1)); TDo (Do (LRead 1)); TDo (Do (LCas 1 false)); TDo (Do (LWrite 1 0 9)); TDo (Do (LStartFree 1 0));
          TFlush 1 0; TDo (Do (LXchg 1)); TDo (Do (LLink 1));
          TDo (Do (LStartAlloc 0)); TDo (Do (LLoad 0)); TDo (Do (LRead 0)); TDo (Do (LCas 0 false)); TDo (Do (LStartAlloc 0)); TDo (Do (LLoad 0))].
  eexists. exists (TDo (Do (LRead 0))). split; [|split; [|split]].
  - now_in_order.
  - apply (tplay_run (plainly serial_rule) n _ [] (tinit n)); [constructor| |unfold tinit; rewrite Ei; vm_compute; reflexivity].
    unfold tinit. rewrite Ei. vm_compute. repeat split; intros [|[|t]]; reflexivity.
  - exact I.
  - reflexivity.
Qed.
Print Assumptions C165_pointer_refuted.

(** Calls that do not overlap, none of which takes a block with an outdated link, and still what a holder wrote is overwritten by a store of
    a deallocate that returned earlier in another thread. *)
Theorem C165_contents_refuted : forall n v, 0 < n ->
  exists es s s', in_order es /\ trun (fun l s => plainly serial_rule l s /\ plainly fresh_rule l s) n es s /\
    holds (base s) 0 0 = true /\ sees s 0 0 = Some (CData v) /\ tstep (TFlush 1 0) s = TStep s' /\
    holds (base s') 0 0 = true /\ forall w, sees s' 0 0 <> Some (CData w).
Proof.
  intros n v Hn. destruct (cinit_one n Hn) as (q & r & Ei).
  exists [TDo (Do (LStartAlloc 1)); TDo (Do (LLoad 1)); TDo (Do (LRead 1)); TDo (Do (LCas 1 false)); TDo (Do (LStartFree 1 0));
          TDo (Do (LXchg 1)); TDo (Do (LLink 1));
          TDo (Do (LStartAlloc 0)); TDo (Do (LLoad 0)); TDo (Do (LRead 0)); TDo (Do (LCas 0 false)); TDo (Do (LWrite 0 0 v)); TFlush 0 0].
  eexists. eexists. split; [|split; [|split; [|split; [|split; [|split]]]]].
  - now_in_order.
  - apply (tplay_run (fun l s => plainly serial_rule l s /\ plainly fresh_rule l s) n _ [] (tinit n)); [constructor| |unfold tinit; rewrite Ei; vm_compute; reflexivity].
    unfold tinit. rewrite Ei. vm_compute. repeat match goal with |- _ /\ _ => split end; try exact I; try (intros [|[|t]]; reflexivity);
      (intros b q0 [Eb Eq]; injection Eb as <- <-; split; [intros [|[|t]] [x C]; discriminate C|eexists; split; reflexivity]).
  - reflexivity.
  - reflexivity.
  - reflexivity.
  - reflexivity.
  - intros w C. vm_compute in C. discriminate C.
Qed.
Print Assumptions C165_contents_refuted.

(** Calls one at a time, each begun when the links other threads stored have reached memory: the machine behaves as one without buffers, on
    which calls come one at a time (C113, C116), and the pool is safe. *)
Theorem C165_locked_partial : forall n es s, 0 < n -> trun locked_rule n es s ->
  (exists c, run_with serial_rule (cinit n) (program es) c /\ like s c) /\ tsafe locked_rule s.
Proof.
  intros n es s Hn R. split; [|now apply (locked_tsafe n es)]. destruct (locked_run n es s Hn R) as (m & R' & S & _).
  exists (with_mem s m). split; [exact R'|now apply sim_like].
Qed.
Print Assumptions C165_locked_partial.

(** Overlapping calls: what C147 asks for and that no store to a block is on the way when its link is read and when it is taken. *)
Theorem C165_visible_partial : forall n es s, 0 < n -> trun fresh_visible_rule n es s ->
  (exists c, run_with fresh_rule (cinit n) (program es) c /\ like s c) /\ tsafe fresh_visible_rule s.
Proof.
  intros n es s Hn R. split; [|now apply (fresh_visible_tsafe n es)]. destruct (sim_run n es s Hn R) as (m & R' & S).
  exists (with_mem s m). split; [exact R'|now apply sim_like].
Qed.
Print Assumptions C165_visible_partial.

(** Then concurrent calls behave as calls made one after the other on a stack (C142), with store buffers as without. *)
Theorem C165_linearizable_partial : forall n es s, 0 < n -> trun locked_rule n es s \/ trun fresh_visible_rule n es s ->
  PoolLinSpec.linearizable n (thistory es (tinit n)).
Proof.
  intros n es s Hn [R|R].
  - rewrite (locked_history n es s Hn R). destruct (locked_run n es s Hn R) as (m & R' & _).
    apply (Props_PoolLin.C142_linearizable_partial n _ (with_mem s m) Hn). auto 7.
  - rewrite (fresh_history n es s Hn R). destruct (sim_run n es s Hn R) as (m & R' & _).
    exact (PoolLinProofs.fresh_linearizable n _ (with_mem s m) Hn R').
Qed.
Print Assumptions C165_linearizable_partial.
(** Without the rule they do not, even if they do not overlap. *)
Theorem C165_linearizable_refuted : forall n, 2 <= n ->
  exists es s, in_order es /\ trun (plainly serial_rule) n es s /\ ~ PoolLinSpec.linearizable n (thistory es (tinit n)).
Proof.
  intros n Hn. destruct (cinit_two n Hn) as (q & r & Ei).
  exists [TDo (Do (LStartAlloc 1)); TDo (Do (LLoad 1)); TDo (Do (LRead 1)); TDo (Do (LCas 1 false));
          TDo (Do (LStartAlloc 0)); TDo (Do (LLoad 0)); TDo (Do (LRead 0)); TDo (Do (LCas 0 false));
          TDo (Do (LStartFree 1 0)); TDo (Do (LXchg 1)); TDo (Do (LLink 1));
          TDo (Do (LStartAlloc 0)); TDo (Do (LLoad 0)); TDo (Do (LRead 0)); TDo (Do (LCas 0 false));
          TDo (Do (LStartAlloc 0)); TDo (Do (LLoad 0)); TDo (Do (LRead 0)); TDo (Do (LCas 0 false))].
  eexists. split; [now_in_order|split].
  - match goal with |- trun _ _ ?es _ => apply (tplay_run (plainly serial_rule) n es [] (tinit n)) end; [constructor| |unfold tinit; rewrite Ei; vm_compute; reflexivity].
    unfold tinit. rewrite Ei. vm_compute. repeat match goal with |- _ /\ _ => split end; try exact I; intros [|[|t]]; reflexivity.
  - intro L. pose proof (Props_PoolLin.C142_balance n _ 1 L) as B. unfold tinit in B. rewrite Ei in B. vm_compute in B. lia.
Qed.
Print Assumptions C165_linearizable_refuted.

(** And needed: take a block while a store of another thread to it is on the way, and what the new holder [t] writes can be overwritten. *)
Theorem C165_needed_partial : forall n es s t b q u v s1, 0 < n -> trun fresh_visible_rule n es s ->
  takes (base s) t b q -> up_to_date (base s) b q -> u <> t -> pending (buffers s u) b <> None ->
  tstep (TDo (Do (LCas t false))) s = TStep s1 ->
  exists es2 s2 s3, in_order es2 /\ trun (plainly fresh_rule) n (es ++ TDo (Do (LCas t false)) :: es2) s2 /\
    holds (base s2) t b = true /\ sees s2 t b = Some (CData v) /\
    tstep (TFlush u 0) s2 = TStep s3 /\ holds (base s3) t b = true /\ forall w, sees s3 t b <> Some (CData w).
Proof.
  intros n es s t b q u v s1 Hn R T U Nu Hp E.
  destruct (late_link n es s t b q u v s1 Hn R T U Nu Hp E) as (es2 & s2 & s3 & q' & H0 & H1 & H2 & H3 & H4 & H5 & H6).
  exists es2, s2, s3. repeat (split; [assumption|]). intros w C. rewrite C in H6. discriminate H6.
Qed.
Print Assumptions C165_needed_partial.

(** Nobody waits for ever: the stores of a thread can always reach memory, which leaves everything else as it is. *)
Theorem C165_drains : forall ok n es s t, trun ok n es s ->
  exists s', trun ok n (es ++ repeat (TFlush t 0) (length (buffers s t))) s' /\ buffers s' t = [] /\
    pcs (base s') = pcs (base s) /\ chead (base s') = chead (base s) /\ holders (base s') = holders (base s) /\
    forall u, u <> t -> buffers s' u = buffers s u.
Proof.
  intros ok n es s t R. destruct (drain_buffer (length (buffers s t)) s t eq_refl) as (s' & K & H). exists s'. split; [now apply K|exact H].
Qed.
Print Assumptions C165_drains.

(** Two threads with a lock and two blocks: stores are on the way while the other thread is inside the pool's functions, and at the end
    thread 0 has both blocks. *)
Definition tso_locked : list tevent :=
  [TDo (Do (LStartAlloc 0)); TDo (Do (LLoad 0)); TDo (Do (LRead 0)); TDo (Do (LCas 0 false));
   TDo (Do (LStartAlloc 1)); TDo (Do (LLoad 1)); TDo (Do (LRead 1)); TDo (Do (LCas 1 false));
   TDo (Do (LWrite 0 0 7)); TDo (Do (LWrite 1 1 8)); TDo (Do (LStartFree 1 1)); TFlush 1 0; TDo (Do (LXchg 1)); TDo (Do (LLink 1)); TFlush 1 0;
   TDo (Do (LStartAlloc 0)); TDo (Do (LLoad 0)); TDo (Do (LRead 0)); TFlush 0 0; TDo (Do (LCas 0 false)); TDo (Do (LWrite 0 1 5))].
Example C165_locked_case : exists s, trun locked_rule 2 tso_locked s /\ holds (base s) 0 0 = true /\ holds (base s) 0 1 = true /\
  sees s 0 1 = Some (CData 5) /\ sees s 1 1 = Some (CNext Null) /\ sees s 0 0 = Some (CData 7).
Proof.
  eexists. split; [|split; [|split; [|split; [|split]]]].
  - apply (tplay_run locked_rule 2 tso_locked [] (tinit 2)); [constructor| |vm_compute; reflexivity].
    vm_compute. repeat match goal with |- _ /\ _ => split end; try exact I; try (intros [|[|t]]; reflexivity);
      intros [|[|t]] b q N H; try (now apply N); repeat (destruct H as [H|H]; try discriminate H); try destruct H.
  - reflexivity.
  - reflexivity.
  - reflexivity.
  - reflexivity.
  - reflexivity.
Qed.
(** Overlapping calls that keep the rule: thread 1 frees block 0 while thread 0 is between its load and its read. *)
Definition tso_overlap : list tevent :=
  [TDo (Do (LStartAlloc 1)); TDo (Do (LLoad 1)); TDo (Do (LRead 1)); TDo (Do (LCas 1 false)); TDo (Do (LWrite 1 0 9));
   TDo (Do (LStartAlloc 0)); TDo (Do (LLoad 0)); TDo (Do (LStartFree 1 0)); TFlush 1 0; TDo (Do (LXchg 1)); TDo (Do (LRead 0)); TDo (Do (LLink 1));
   TDo (Do (LCas 0 false)); TDo (Do (LLoad 0)); TFlush 1 0; TDo (Do (LRead 0)); TDo (Do (LCas 0 false)); TDo (Do (LWrite 0 0 3))].
Example C165_visible_case : exists s, trun fresh_visible_rule 2 tso_overlap s /\ holders (base s) = [(0, 0)] /\ sees s 0 0 = Some (CData 3) /\
  sees s 1 0 = Some (CNext (At 1)).
Proof.
  eexists. split; [|split; [|split]].
  - apply (tplay_run fresh_visible_rule 2 tso_overlap [] (tinit 2)); [constructor| |vm_compute; reflexivity].
    vm_compute. repeat match goal with |- _ /\ _ => split end; try exact I.
    all: try (intros b Eb; injection Eb as <-; intros [|[|t]] N; try reflexivity; now destruct N).
    all: intros b q [Eb Eq]; try discriminate Eq; injection Eb as <- <-.
    all: try (split; [intros [|[|t]] [x C]; discriminate C|eexists; split; reflexivity]).
    all: intros [|[|t]] N; try reflexivity; now destruct N.
  - reflexivity.
  - reflexivity.
  - reflexivity.
Qed.
(** A state as C165_needed_partial describes. *)
Example C165_needed_case : exists es s s1, trun fresh_visible_rule 2 es s /\ takes (base s) 0 0 (At 1) /\ up_to_date (base s) 0 (At 1) /\
  pending (buffers s 1) 0 = Some (CNext (At 1)) /\ tstep (TDo (Do (LCas 0 false))) s = TStep s1.
Proof.
  exists [TDo (Do (LStartAlloc 0)); TDo (Do (LLoad 0)); TDo (Do (LRead 0));
     TDo (Do (LStartAlloc 1)); TDo (Do (LLoad 1)); TDo (Do (LRead 1)); TDo (Do (LCas 1 false)); TDo (Do (LStartFree 1 0)); TDo (Do (LXchg 1)); TDo (Do (LLink 1))].
  eexists. eexists. split; [|split; [|split; [|split]]].
  - match goal with |- trun _ _ ?es _ => apply (tplay_run fresh_visible_rule 2 es [] (tinit 2)) end; [constructor| |vm_compute; reflexivity].
    vm_compute. repeat match goal with |- _ /\ _ => split end; try exact I.
    all: try (intros b Eb; injection Eb as <-; intros [|[|t]] N; try reflexivity; now destruct N).
    all: intros b q [Eb Eq]; try discriminate Eq; injection Eb as <- <-.
    all: try (split; [intros [|[|t]] [x C]; discriminate C|eexists; split; reflexivity]).
    all: intros [|[|t]] N; try reflexivity; now destruct N.
  - split; reflexivity.
  - split; [intros [|[|t]] [x C]; discriminate C|eexists; split; reflexivity].
  - reflexivity.
  - vm_compute. reflexivity.
Qed.
