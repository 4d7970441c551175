(** Property C152: threads that start, stop, share, drop and use interface groups at the same time.
    [lives rule live vars threads s]: [threads] threads with [vars] common pointers, of which each step kept within the contract of the
    operations ([allowed_act]) and began in a state that obeys [rule], have brought about [s]; [live] are the descriptors that were open
    before. [considerate]: no thread stores into a pointer that another one is using or storing into. *)
From Coq Require Import ZArith Bool String List Permutation Lia.
From Verif Require Import Outcome ResultModel CInt SatMathSpec CanFrameModel CanFrameProofs SocketCanModel GroupModel ManagerModel ManagerSpec ManagerProofs OomModel
  OwnerModel OwnerSpec OwnerProofs SyscallModel SyscallSpec LifeCalls LifeModel LifeSpec LifeProofs LifeAlone.
Import ListNotations.
Open Scope Z_scope.

(** ** Concrete executions *)
(** A step that is within the contract, as a test. *)
Definition legal (a : act) (s : life) : bool :=
  match a with
  | Begin _ (Call v _) => match nth_error (l_vars s) v with Some (Some _) => true | _ => false end
  | Begin _ (Start v _ _ _ _ _ _) | Begin _ (Drop v) => (v <? length (l_vars s))%nat
  | Begin _ (Copy dst src) => ((dst <? length (l_vars s)) && (src <? length (l_vars s)))%nat
  | Go _ => true
  end.
Definition storesb (k : task) (v : nat) : bool := match k with Storing w _ _ => (w =? v)%nat | _ => false end.
Definition usesb (k : task) (v : nat) : bool :=
  match k with
  | Calling w _ _ | Retaining _ w _ | Releasing _ (Some w) | Closing _ _ (Some w) | Checking w => (w =? v)%nat
  | _ => false
  end.
Definition quarrel (k j : task) : bool :=
  match k with Storing v _ _ => usesb j v || storesb j v | _ => false end.
Definition meddles (s : life) : bool :=
  existsb (fun t => existsb (fun u => negb (t =? u)%nat && quarrel (nth t (l_doing s) Idle) (nth u (l_doing s) Idle)) (seq 0 (length (l_doing s))))
    (seq 0 (length (l_doing s))).
Lemma meddles_false : forall s, meddles s = false -> considerate s.
Proof.
  intros s F (t & u & k & j & v & N & T & U & S1 & C). revert F. apply not_false_iff_true. unfold meddles.
  apply existsb_exists. exists t. split; [apply in_seq; split; [lia|]; apply nth_error_Some; congruence|].
  apply existsb_exists. exists u. split; [apply in_seq; split; [lia|]; apply nth_error_Some; congruence|].
  rewrite (nth_error_nth _ _ Idle T), (nth_error_nth _ _ Idle U). apply andb_true_iff. split; [apply negb_true_iff, Nat.eqb_neq; exact N|].
  destruct k; try contradiction S1. cbn in S1. subst. cbn [quarrel]. apply orb_true_iff. destruct C as [C|C]; [left|right]; destruct j; cbn in *; try contradiction;
    try (apply Nat.eqb_eq; congruence); destruct back0; try contradiction; apply Nat.eqb_eq; congruence.
Qed.
Fixpoint follow (polite : bool) (acts : list act) (s : life) : option life :=
  match acts with
  | [] => Some s
  | a :: acts => if negb (polite && meddles s) && legal a s
                 then match life_step a s with Some (Ret s') => follow polite acts s' | _ => None end
                 else None
  end.
Definition sound_act (a : act) : Prop :=
  match a with Begin _ (Start _ _ _ configs num kernel _) => configs_ok configs num /\ fresh_descriptors [] kernel | _ => True end.
Lemma legal_allowed : forall a s, legal a s = true -> sound_act a -> allowed_act a s.
Proof.
  intros [t o|t] s L A; [|exact Logic.I]. destruct o as [v w|v f m c n k x|d r|v]; cbn in *.
  - destruct (nth_error (l_vars s) v) as [[i|]|]; try discriminate. eauto.
  - split; [apply Nat.ltb_lt; exact L|exact A].
  - apply andb_true_iff in L. destruct L as [L1 L2]. split; apply Nat.ltb_lt; assumption.
  - apply Nat.ltb_lt. exact L.
Qed.
Lemma follow_lives : forall (polite : bool) live vars threads acts s s', Forall sound_act acts ->
  lives (if polite then considerate else anyhow) live vars threads s -> follow polite acts s = Some s' ->
  lives (if polite then considerate else anyhow) live vars threads s'.
Proof.
  intros polite live vars threads. induction acts as [|a acts IH]; intros s s' F H E; [cbn in E; congruence|].
  cbn [follow] in E. inversion F as [|a0 l0 A F1]; subst. destruct (negb (polite && meddles s) && legal a s) eqn:C; [|discriminate].
  apply andb_true_iff in C. destruct C as [C L]. destruct (life_step a s) as [[s1|]|] eqn:E1; try discriminate. apply (IH s1 s' F1); [|exact E].
  eapply lives_step; [exact H| |apply legal_allowed; eauto|exact E1]. destruct polite; [|exact Logic.I].
  apply meddles_false. apply negb_true_iff in C. exact C.
Qed.

Definition two_interfaces : manager := Manager ["can0"; "can1"]%string true true.
Definition numbering (from : Z) (t : nat) (tr : list event) : answers :=
  Answers (match replay [] tr with Some now => 1 + fold_right Z.max from now | None => -1 end) 0 0 0 1 0 0 (fun _ _ => 0).
Lemma numbering_fresh : forall from, fresh_descriptors [] (numbering from).
Proof.
  intros from t tr now R _. unfold numbering. cbn [a_socket]. rewrite R. intros I.
  assert (L : forall l x, In x l -> x <= fold_right Z.max from l) by (induction l as [|y l IH]; [contradiction|]; intros x [->|Q]; cbn; [|apply IH in Q]; lia).
  apply L in I. lia.
Qed.
Definition starting (t v : nat) (from : Z) : act := Begin t (Start v 300 two_interfaces None 0 (numbering from) (fun _ => false)).
Lemma starting_sound : forall t v from, sound_act (starting t v from).
Proof. intros. split; [cbn; lia|apply numbering_fresh]. Qed.

(** C152. Full claim: whatever threads do with common pointers to groups, within the contracts of the single operations, nothing
    undefined happens, [forall live vars threads s a, NoDup live -> lives anyhow live vars threads s -> allowed_act a s -> life_step a s <> Some UB].
    It fails: one thread stops the group through which another one is making a call. The group is destroyed and its sockets are closed
    under the call (the library has no lock and the call does not hold a reference of its own). *)
Definition one_group : list act := starting 0 0 2 :: repeat (Go 0) 5.
Definition stopped_under_call : list act := one_group ++ [Begin 0 (Call 0 [0%nat]); Begin 1 (Drop 0); Go 1; Go 1].
Theorem C152_threads_refuted : ~ forall live vars threads s a, NoDup live -> lives anyhow live vars threads s -> allowed_act a s ->
  life_step a s <> Some UB.
Proof.
  intros C.
  assert (K : match follow false stopped_under_call (life_start [0; 1; 2] 1 2) with
              | Some s => life_step (Go 0) s = Some UB | None => False end) by (vm_compute; reflexivity).
  destruct (follow false stopped_under_call (life_start [0; 1; 2] 1 2)) as [s|] eqn:E; [|contradiction].
  apply (C [0; 1; 2] 1%nat 2%nat s (Go 0)); [repeat constructor; cbn; intuition lia| |exact Logic.I|exact K].
  apply (follow_lives false [0; 1; 2] 1 2 stopped_under_call (life_start [0; 1; 2] 1 2) s); [|constructor|exact E].
  constructor; [apply starting_sound|]. cbn. repeat (constructor; [exact Logic.I|]). constructor.
Qed.
Print Assumptions C152_threads_refuted.

(** Missing: executions in which a thread stores into a pointer that another one is using. In all others nothing undefined happens. *)
Theorem C152_defined_partial : forall live vars threads s a, NoDup live -> lives considerate live vars threads s -> considerate s ->
  allowed_act a s -> life_step a s <> Some UB.
Proof.
  intros live vars threads s a ND H C AL E. pose proof (step_inv live s a (lives_inv live vars threads s ND H) C AL) as Q. rewrite E in Q. exact Q.
Qed.
Print Assumptions C152_defined_partial.

(** At every moment the open descriptors are those from before, those of the groups that have a use count, and those that some thread has
    still to hand over or to close, each once; descriptor 0 (C121) excepted. *)
Theorem C152_sockets_partial : forall live vars threads s, NoDup live -> lives considerate live vars threads s ->
  NoDup (l_table s) /\ exists leaked, Forall (eq 0) leaked /\
    Permutation (l_table s) (live ++ leaked ++ held_by_groups s ++ held_by_tasks s).
Proof. intros live vars threads s ND H. apply inv_sockets. eapply lives_inv; eauto. Qed.
Print Assumptions C152_sockets_partial.

(** Whatever descriptor a thread uses or closes is open, so that none is used after it was closed and none is closed twice. A call finds
    its group there, and what it has still to use are descriptors of that group; what a thread has still to close belongs to
    no group that has a use count, to no other thread and not to what was open before. *)
Theorem C152_descriptors_partial : forall live vars threads s t k, NoDup live -> lives considerate live vars threads s ->
  nth_error (l_doing s) t = Some k ->
  (forall d, acts_on k = Some d -> In d (l_table s)) /\
  (forall v i ds, k = Calling v i ds -> exists g, alive s i = Some g /\ incl ds (map getSocketDescriptor g)) /\
  (forall i ds back d, k = Closing i ds back -> In d ds -> ~ In d live /\ ~ In d (held_by_groups s) /\
     forall u j, u <> t -> nth_error (l_doing s) u = Some j -> acts_on j <> Some d).
Proof.
  intros live vars threads s t k ND H T. pose proof (lives_inv live vars threads s ND H) as I. split; [|split].
  - intros d A. eapply inv_acts; eauto.
  - intros v i ds ->. destruct (inv_calling live s t v i ds I T) as (g & n & E & C). exists g. unfold alive. rewrite E. auto.
  - intros i ds back d -> D. apply (inv_closing live s t i ds back d I T D).
Qed.
Print Assumptions C152_descriptors_partial.

(** When every thread has ended what it was doing, a use count is the number of pointers, and no sockets are open but those of groups
    that are pointed to. *)
Theorem C152_rest_partial : forall live vars threads s, NoDup live -> lives considerate live vars threads s -> at_rest s ->
  (forall i c, nth_error (l_heap s) i = Some c -> c_uses c = pointers_to s i) /\
  exists leaked, Forall (eq 0) leaked /\ Permutation (l_table s) (live ++ leaked ++ held_by_groups s).
Proof.
  intros live vars threads s ND H R. pose proof (lives_inv live vars threads s ND H) as I. destruct (inv_rest live s I R) as [C Z0]. split.
  - intros i [g n] E. rewrite <- C. unfold count_of. rewrite E. reflexivity.
  - destruct (inv_sockets live s I) as (_ & leaked & L & P). rewrite Z0, app_nil_r in P. eauto.
Qed.
Print Assumptions C152_rest_partial.

(** The rule is needed: a thread that is about to store into the last pointer to a group while another one is calling through
    that pointer, or copying it, can make that one use what was destroyed; and one that is about to store null while startInterfaceGroup is
    about to read the pointer again makes that read a null pointer. *)
Theorem C152_last_pointer : forall s t u v p back j i g, t <> u ->
  nth_error (l_doing s) t = Some (Storing v p back) -> nth_error (l_doing s) u = Some j ->
  (exists ds, j = Calling v i ds) \/ (exists dst, j = Retaining dst v i) ->
  nth_error (l_vars s) v = Some (Some i) -> nth_error (l_heap s) i = Some (Cell g 1) ->
  goes_wrong [Go t; Go t; Go u] s.
Proof.
  intros s t u v p back j i g N T U J V H. eapply last_pointer_lost; eauto. destruct J as [(ds & ->)|J]; [left; reflexivity|right; exact J].
Qed.
Print Assumptions C152_last_pointer.
Theorem C152_dropped_under_start : forall s t u v back, t <> u ->
  nth_error (l_doing s) t = Some (Storing v None back) -> nth_error (l_doing s) u = Some (Checking v) -> (v < length (l_vars s))%nat ->
  goes_wrong [Go t; Go u] s.
Proof. exact dropped_under_start. Qed.
Print Assumptions C152_dropped_under_start.

(** No thread waits for another. In a considerate state every thread that is about something can make its next step, unless it is to open
    a socket with a descriptor that is open, which no kernel hands out; and every
    thread that goes on being scheduled ends what it does, whatever the others do, in any endless execution. *)
Theorem C152_progress_partial : forall live vars threads s t k, NoDup live -> lives considerate live vars threads s -> considerate s ->
  nth_error (l_doing s) t = Some k -> k <> Idle -> (forall d, awaits k = Some d -> ~ In d (l_table s)) ->
  exists s', life_step (Go t) s = Some (Ret s').
Proof. intros live vars threads s t k ND H. apply (progress live s t k). eapply lives_inv; eauto. Qed.
Print Assumptions C152_progress_partial.
Theorem C152_operations_end : forall s a t, endless s a -> (forall m, exists i, (m <= i)%nat /\ a i = Go t) ->
  forall n, exists m, (n <= m)%nat /\ nth_error (l_doing (s m)) t = Some Idle.
Proof. exact operations_end. Qed.
Print Assumptions C152_operations_end.

(** A thread that works alone does what the program of C141 does. *)
Theorem C152_alone : forall live n h s u fuel o a s' doing t, NoDup live -> program live n h s -> legal_use live u s ->
  nth_error doing t = Some Idle -> as_op fuel u (w_trace (o_world s)) = Some o ->
  do_use fuel u s = Some (Ret (a, s')) ->
  exists table table', replay live (w_trace (o_world s)) = Some table /\ replay live (w_trace (o_world s')) = Some table' /\
    makes t o (Life (o_heap s) (o_vars s) table doing) (Life (o_heap s') (o_vars s') table' doing).
Proof.
  intros live n h s u fuel o a s' doing t ND P LG ID O E.
  destruct (program_sockets live n h s ND P) as (table & _ & T & _). pose proof (p_use live n h s u fuel a s' P LG E) as P'.
  destruct (program_sockets live n _ s' ND P') as (table' & _ & T' & _). exists table, table'. split; [exact T|]. split; [exact T'|].
  eapply alone; eauto. intros v i V. destruct (program_inv live n h s ND P) as (C & _ & _). apply (ct_in _ _ C). left. eapply nth_error_In; eauto.
Qed.
Print Assumptions C152_alone.

(** [Call] is what the functions of a group do: whatever the system answers, the system calls of write, read, select and
    reconfigureFilters use, one after the other, the descriptors that a [Call] uses, and the group keeps its descriptors. [g] is the group
    as the caller has it, which earlier calls may have changed except for its descriptors. *)
Theorem C152_calls : forall P fuel k m o g tr r p' tr' s t v i g0,
  (forall c n, o <> Op_start c n) -> o <> Op_stop ->
  step P fuel k m o (Some g) tr = Some (Ret (r, p', tr')) ->
  nth_error (l_vars s) v = Some (Some i) -> alive s i = Some g0 -> map getSocketDescriptor g = map getSocketDescriptor g0 ->
  exists which new g',
    tr' = (tr ++ new)%list /\ p' = Some g' /\ map getSocketDescriptor g' = map getSocketDescriptor g0 /\
    begin t (Call v which) s = Some (Ret (now t (Calling v i (flat_map (fun e => SyscallSpec.uses (fst e)) new)) s)) /\
    match o with
    | Op_write index _ _ | Op_read _ index _ => which = [] \/ which = [Z.to_nat index]
    | Op_select _ _ _ => which = seq 0 (length g)
    | Op_reconfigure _ _ => (length g <= 255)%nat -> exists n, which = seq 0 n
    | _ => False
    end.
Proof.
  intros P fuel k m o g tr r p' tr' s t v i g0 NS NT E V A D. destruct (calls_use P fuel k m o g tr r p' tr' NS NT E) as (w & new & g' & T & U & G & D' & W).
  exists w, new, g'. split; [exact T|]. split; [exact G|]. split; [rewrite D'; exact D|]. split; [|exact W].
  cbn [begin]. rewrite V, A, U, (chosen_same g g0 w D). reflexivity.
Qed.
Print Assumptions C152_calls.
(** Two interfaces, descriptors 3 and 4: select asks about both, a read uses the second one only. *)
Definition pair : group := [iface_make 0 "can0" 3; iface_make 1 "can1" 4].
Definition pair_shared : life := Life [Cell pair 2] [Some 0%nat; Some 0%nat] [3; 4; 0; 1; 2] [Idle; Idle].
Example C152_calls_case : forall m, exists out new,
  step lp64_wrapping 9 (fun _ _ => (0, 0)) m (Op_select 5 true [0; 0]) (Some pair) [] = Some (Ret (Selected SuccessTimeout, Some pair, new)) /\
  flat_map (fun e => SyscallSpec.uses (fst e)) new = [3; 4] /\
  step lp64_wrapping 9 (fun _ _ => (-1, 4)) m (Op_read [] 1 []) (Some pair) [] = Some (Ret out) /\
  flat_map (fun e => SyscallSpec.uses (fst e)) (snd out) = [4] /\
  nth_error (l_vars pair_shared) 1 = Some (Some 0%nat) /\ alive pair_shared 0 = Some pair.
Proof.
  intros m. eexists. eexists. split; [vm_compute; reflexivity|]. split; [reflexivity|]. split; [vm_compute; reflexivity|]. repeat split; reflexivity.
Qed.

(** What a step leaves alone: a thread does nothing for another one, it changes no pointer but the one it stores into, and nothing but the use
    counts of the groups there are. The pointers and the threads are those of the beginning. *)
Theorem C152_steps : forall a s s', life_step a s = Some (Ret s') ->
  let t := match a with Begin t _ | Go t => t end in
  (forall u, u <> t -> nth_error (l_doing s') u = nth_error (l_doing s) u) /\
  (forall v, (forall k, a = Go t -> nth_error (l_doing s) t = Some k -> ~ stores k v) -> nth_error (l_vars s') v = nth_error (l_vars s) v) /\
  (length (l_heap s) <= length (l_heap s'))%nat /\ (forall i, (i < length (l_heap s))%nat -> group_at s' i = group_at s i).
Proof.
  intros a s s' E t. change t with (actor a). destruct (step_shape a s s' E) as ((k & D) & V & H). split; [|split; [|split]].
  - intros u U. rewrite D. apply nth_error_replace_other. auto.
  - intros v NV. destruct V as [-> | (w & p & back & A & T & ->)]; [reflexivity|]. apply nth_error_replace_other. intros ->.
    exact (NV _ A T eq_refl).
  - destruct H as [-> | [(g & ->) | (i & g & n & m & _ & ->)]]; [lia|rewrite app_length; lia|rewrite replace_nth_length; lia].
  - intros i L. destruct s' as [heap vars table doing]. cbn [l_heap] in H. destruct H as [-> | [(g & ->) | (j & g & n & m & N & H)]].
    + reflexivity.
    + unfold group_at. cbn [l_heap]. rewrite nth_error_app1 by exact L. reflexivity.
    + eapply group_at_replace; eauto.
Qed.
Print Assumptions C152_steps.
Theorem C152_size : forall rule live vars threads s, lives rule live vars threads s -> length (l_vars s) = vars /\ length (l_doing s) = threads.
Proof.
  intros rule live vars threads s H. induction H as [|s a s' H [IV ID] _ _ E]; [cbn; rewrite !repeat_length; auto|].
  destruct (step_shape a s s' E) as ((k & D) & V & _). rewrite D, replace_nth_length. split; [|exact ID].
  destruct V as [-> | (w & p & back & _ & _ & ->)]; [exact IV|]. rewrite replace_nth_length. exact IV.
Qed.
Print Assumptions C152_size.

(** Two threads, two pointers. Both start a group at the same time; one calls through its pointer while the other copies it, whereby the
    other's group is destroyed; then one drops its pointer while the other makes a call to the same group. All of it is considerate, and
    the first group is left with one pointer. *)
Definition together : list act := [Go 0; Go 1].
Definition shared_case : list act :=
  [starting 0 0 2; starting 1 1 10] ++ together ++ together ++ together ++ together ++ together ++
  [Begin 0 (Call 0 [0; 1]%nat); Begin 1 (Copy 1 0)] ++ together ++ together ++ together ++ [Go 1; Go 1; Go 1] ++
  [Begin 0 (Drop 0); Begin 1 (Call 1 [0; 1; 2]%nat)] ++ together ++ together ++ [Go 1].
Example C152_case : exists s, lives considerate [0; 1; 2] 2 2 s /\ considerate s /\ at_rest s /\ l_vars s = [None; Some 0%nat] /\
  l_table s = [4; 3; 0; 1; 2] /\ map c_uses (l_heap s) = [1; 0]%nat.
Proof.
  assert (A : Forall sound_act shared_case).
  { constructor; [apply starting_sound|]. constructor; [apply starting_sound|]. cbn. repeat (constructor; [exact Logic.I|]). constructor. }
  assert (K : match follow true shared_case (life_start [0; 1; 2] 2 2) with
              | Some s => meddles s = false /\ l_doing s = [Idle; Idle] /\ l_vars s = [None; Some 0%nat] /\ l_table s = [4; 3; 0; 1; 2] /\
                          map c_uses (l_heap s) = [1; 0]%nat
              | None => False end) by (vm_compute; repeat split; reflexivity).
  destruct (follow true shared_case (life_start [0; 1; 2] 2 2)) as [s|] eqn:E; [|contradiction]. destruct K as (M & D & K).
  exists s. split; [apply (follow_lives true [0; 1; 2] 2 2 shared_case _ s A (lives_begin _ _ _ _) E)|].
  split; [apply meddles_false; exact M|]. split; [unfold at_rest; rewrite D; repeat constructor|exact K].
Qed.
(** On the way: one thread is in the middle of a call while the other has replaced the last pointer to another group. *)
Example C152_case_midway : exists s, lives considerate [0; 1; 2] 2 2 s /\ l_table s = [12; 4; 11; 3; 0; 1; 2] /\
  l_doing s = [Calling 0 0 []; Releasing 1 None] /\ pointers_to s 0 = 2%nat /\ held_by_tasks s = [].
Proof.
  set (acts := firstn 18 shared_case).
  assert (A : Forall sound_act acts).
  { constructor; [apply starting_sound|]. constructor; [apply starting_sound|]. cbn. repeat (constructor; [exact Logic.I|]). constructor. }
  assert (K : match follow true acts (life_start [0; 1; 2] 2 2) with
              | Some s => l_table s = [12; 4; 11; 3; 0; 1; 2] /\ l_doing s = [Calling 0 0 []; Releasing 1 None] /\ pointers_to s 0 = 2%nat /\ held_by_tasks s = []
              | None => False end) by (vm_compute; repeat split; reflexivity).
  destruct (follow true acts (life_start [0; 1; 2] 2 2)) as [s|] eqn:E; [|contradiction].
  exists s. split; [apply (follow_lives true [0; 1; 2] 2 2 acts _ s A (lives_begin _ _ _ _) E)|exact K].
Qed.
(** Considerate programs reach the states that C152_last_pointer and C152_dropped_under_start speak of. *)
Lemma reached : forall acts (P : life -> Prop), Forall sound_act acts ->
  match follow true acts (life_start [0; 1; 2] 1 2) with Some s => P s | None => False end ->
  exists s, lives considerate [0; 1; 2] 1 2 s /\ P s.
Proof.
  intros acts P A K. destruct (follow true acts (life_start [0; 1; 2] 1 2)) as [s|] eqn:E; [|contradiction].
  exists s. split; [apply (follow_lives true [0; 1; 2] 1 2 acts _ s A (lives_begin _ _ _ _) E)|exact K].
Qed.
Example C152_case_last_pointer : exists s, lives considerate [0; 1; 2] 1 2 s /\
  (nth_error (l_doing s) 1 = Some (Storing 0 None None) /\ nth_error (l_doing s) 0 = Some (Calling 0 0 [3]) /\
   nth_error (l_vars s) 0 = Some (Some 0%nat) /\ option_map c_uses (nth_error (l_heap s) 0) = Some 1%nat).
Proof.
  apply (reached (one_group ++ [Begin 0 (Call 0 [0%nat]); Begin 1 (Drop 0)])).
  - constructor; [apply starting_sound|]. cbn. repeat (constructor; [exact Logic.I|]). constructor.
  - vm_compute. repeat split; reflexivity.
Qed.
Example C152_case_dropped : exists s, lives considerate [0; 1; 2] 1 2 s /\
  (nth_error (l_doing s) 1 = Some (Storing 0 None None) /\ nth_error (l_doing s) 0 = Some (Checking 0) /\ l_vars s = [Some 0%nat]).
Proof.
  apply (reached (firstn 5 one_group ++ [Begin 1 (Drop 0)])).
  - constructor; [apply starting_sound|]. cbn. repeat (constructor; [exact Logic.I|]). constructor.
  - vm_compute. repeat split; reflexivity.
Qed.
(** An endless execution in which a thread goes on being scheduled. *)
Example C152_case_endless : exists s a, endless s a /\ s 0%nat = life_start [0; 1; 2] 1 2 /\ forall m, exists i, (m <= i)%nat /\ a i = Go 0.
Proof.
  exists (fun n => if Nat.even n then life_start [0; 1; 2] 1 2 else now 0 (Storing 0 None None) (life_start [0; 1; 2] 1 2)),
    (fun n => if Nat.even n then Begin 0 (Drop 0) else Go 0).
  split; [|split; [reflexivity|]].
  - intros n. rewrite Nat.even_succ, <- Nat.negb_even. destruct (Nat.even n); reflexivity.
  - intros m. exists (S (2 * m))%nat. split; [lia|]. rewrite Nat.even_succ, <- Nat.negb_even, Nat.even_mul. reflexivity.
Qed.
