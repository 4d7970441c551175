(** Property C150: calls of an interface group from several threads.
    [overlapped P s0 ok s]: threads that started out with the group [s0], began calls only as [ok] allows and interleaved their accesses to
    the members of the group in any way have brought about [s]. [serve_all] makes calls one after the other (the functions of GroupModel.v
    and PollModel.v). *)
From Coq Require Import ZArith Bool String List Permutation Lia.
From Verif Require Import Outcome ResultModel CInt SatMathSpec SatMathModel TimeModel CanFrameModel CanFrameSpec SocketCanModel SocketCanSpec
  GroupModel PollModel OverlapModel OverlapSpec OverlapProofs OverlapRefine OverlapRaces.
Import ListNotations.
Open Scope Z_scope.

(** C150. Full claim: calls from several threads answer as if they had been made one after the other in some order,
    [forall P s0 s, Forall iface_typed (fst s0) -> pv_size (snd s0) = 0 -> overlapped P s0 anyhow s -> quiet s ->
     exists l, Permutation l (log s) /\ as_if_alone P s0 l]. It fails for one thread that writes to an interface and one that reads from it,
    even if access to each message buffer were atomic: the write sends the frame that the other thread is receiving. *)
Definition own_frame : frame := Frame 0x111 (7 :: repeat 0 63) 1 0.
Definition no_frame : frame := Frame 0 (repeat 0 64) 0 0.
Definition bus_message : kmsg := KMsg (CAN_EFF_FLAG + 0x222) 1 (9 :: repeat 0 7) [] 32.
Definition sending : call := Write 0 (fun ms => (Z.of_nat (length ms), 0)) (own_frame :: repeat no_frame 3) 1 0.
Definition receiving : call := Read 0 1 0 [bus_message] (repeat no_frame 4) 0.
Definition one_interface : state := ([iface_make 0 "can0" 3], pvec_new).
Definition nothing : memory := fun _ => VPolls pvec_new.
Definition mixed_up : list event :=
  [Begin 0 sending; Begin 1 receiving] ++ repeat (Access 0) 2 ++ repeat (Access 1) 3 ++ repeat (Access 0) 2 ++ [End 0] ++ repeat (Access 1) 6 ++ [End 1].

Lemma typed_no : frame_typed 64 no_frame /\ fdlc no_frame < 256.
Proof.
  split; [|reflexivity]. unfold frame_typed, no_frame. cbn [fdata fid fdlc fts]. repeat split; try reflexivity; try lia; try discriminate.
Qed.
Lemma typed_own : frame_typed 64 own_frame /\ fdlc own_frame < 256.
Proof.
  split; [|reflexivity]. unfold frame_typed, own_frame. cbn [fdata fid fdlc fts]. repeat split; try reflexivity; try lia; try discriminate.
Qed.
Lemma sending_proper : forall P, proper P (fst one_interface) sending.
Proof.
  intro P. split; [lia|]. split; [|lia]. split; [reflexivity|]. constructor; [apply typed_own|]. repeat (constructor; [apply typed_no|]). constructor.
Qed.
Lemma receiving_proper : forall P, proper P (fst one_interface) receiving.
Proof.
  intro P. split; [lia|]. split.
  - split; [lia|]. split; [|reflexivity]. constructor; [|constructor]. unfold kmsg_typed, bus_message, CAN_EFF_FLAG. cbn. repeat split; try lia; congruence.
  - split; [reflexivity|]. repeat (constructor; [apply typed_no|]). constructor.
Qed.
Lemma one_typed : Forall iface_typed (fst one_interface) /\ pv_size (snd one_interface) = 0%nat.
Proof.
  split; [|reflexivity]. constructor; [|constructor]. split; [reflexivity|]. split; [|reflexivity].
  repeat (constructor; [split; [cbn; lia|split; [cbn; lia|reflexivity]]|]). constructor.
Qed.

Theorem C150_threads_refuted : exists s, overlapped lp64 one_interface anyhow s /\ quiet s /\
  (forall l, Permutation l (log s) -> ~ as_if_alone lp64 one_interface l) /\
  exists c, answers_of (log s) = [Ret (RWrite Success 1 (Some [c])); Ret (RRead Success 1 (Frame (CAN_EFF_FLAG + 0x222) (9 :: repeat 0 63) 1 0 :: repeat no_frame 3))] /\
    cf_id c = CAN_EFF_FLAG + 0x222 /\ firstn 1 (cf_data c) = [9].
Proof.
  assert (K : match steps lp64 (fst one_interface) mixed_up (start one_interface nothing) with
              | Some s => doing s 0%nat = None /\ doing s 1%nat = None /\
                  log s = [(0%nat, sending, Ret (RWrite Success 1 (Some [CanFd (CAN_EFF_FLAG + 0x222) 1 (9 :: repeat 0 63)])));
                           (1%nat, receiving, Ret (RRead Success 1 (Frame (CAN_EFF_FLAG + 0x222) (9 :: repeat 0 63) 1 0 :: repeat no_frame 3)))]
              | None => False end).
  { vm_compute. repeat split; reflexivity. }
  destruct (steps lp64 (fst one_interface) mixed_up (start one_interface nothing)) as [s|] eqn:E; [|contradiction].
  destruct K as (K0 & K1 & KL). exists s. split; [|split; [|split]].
  - apply (steps_overlapped lp64 one_interface mixed_up (start one_interface nothing)); [constructor| |exact E].
    unfold mixed_up. cbn [app repeat]. repeat (constructor; [first [exact Logic.I|apply sending_proper|apply receiving_proper]|]). constructor.
  - intros [|[|t]]; auto. apply (idle_stays lp64 (fst one_interface) (S (S t)) mixed_up (start one_interface nothing) s); [|reflexivity|exact E].
    unfold mixed_up. cbn [app repeat]. repeat (constructor; [first [exact Logic.I|discriminate]|]). constructor.
  - intros l Pm (rs & s1 & S & A). rewrite KL in Pm. apply Permutation_sym, Permutation_length_2_inv in Pm.
    assert (W : forall x, In x l -> snd (fst x) = sending -> In (Ret (RWrite Success 1 (Some [CanFd (CAN_EFF_FLAG + 0x222) 1 (9 :: repeat 0 63)]))) (map Ret rs)).
    { intros x Hx _. rewrite <- A. unfold answers_of.
      destruct Pm as [-> | ->]; cbn [map snd]; [left|right; left]; reflexivity. }
    destruct Pm as [-> | ->]; cbn [calls_of map snd fst] in S.
    + specialize (W _ (or_introl eq_refl) eq_refl). clear A E. revert S W.
      assert (Q : match serve_all lp64 [sending; receiving] one_interface with
                  | Ret (RWrite _ _ (Some [c]) :: RRead _ _ _ :: [], _) => cf_id c = CAN_EFF_FLAG + 0x111 | _ => False end)
        by (vm_compute; reflexivity).
      destruct (serve_all lp64 [sending; receiving] one_interface) as [[rs' s']|]; [|contradiction]. intro S. injection S as -> ->.
      destruct rs as [|[r n [[|c [|? ?]]|]| | | | | |] [|[] [|? ?]]]; try contradiction. cbn [map In].
      intros [W|[W|[]]]; [|discriminate W]. injection W as _ _ W. rewrite W in Q. discriminate Q.
    + specialize (W _ (or_intror (or_introl eq_refl)) eq_refl). clear A E. revert S W.
      assert (Q : match serve_all lp64 [receiving; sending] one_interface with
                  | Ret (RRead _ _ _ :: RWrite _ _ (Some [c]) :: [], _) => cf_id c = CAN_EFF_FLAG + 0x111 | _ => False end)
        by (vm_compute; reflexivity).
      destruct (serve_all lp64 [receiving; sending] one_interface) as [[rs' s']|]; [|contradiction]. intro S. injection S as -> ->.
      destruct rs as [|[] [|[r n [[|c [|? ?]]|]| | | | | |] [|? ?]]]; try contradiction. cbn [map In].
      intros [W|[W|[]]]; [discriminate W|]. injection W as _ _ W. rewrite W in Q. discriminate Q.
  - rewrite KL. eexists. split; [reflexivity|]. split; reflexivity.
Qed.
Print Assumptions C150_threads_refuted.

(** It holds for all calls that do not clash ([clash]: a read of an interface with another read of, a write to or a look at the counters of
    the same interface, two writes to the same interface, two calls of select): whatever the threads and their interleaving, the calls
    answer what they answer one after the other in the order in which they return, none is undefined, and the group ends up in the same
    state. Different interfaces may be used at the same time, select may wait meanwhile, and filters may be changed. *)
Theorem C150_threads_partial : forall P s0 s, Forall iface_typed (fst s0) -> pv_size (snd s0) = 0%nat -> overlapped P s0 apart s ->
  as_if_alone P s0 (log s) /\
  (quiet s -> forall rs s1, serve_all P (calls_of (log s)) s0 = Ret (rs, s1) -> holds_state (mem_of s) s1).
Proof.
  intros P s0 s T Z0 R. destruct (apart_as_if_alone P s0 s T Z0 R) as (rs & s1 & E & A & Q). split.
  - exists rs, s1. auto.
  - intros Qs rs' s1' E'. rewrite E in E'. injection E' as _ <-. auto.
Qed.
Print Assumptions C150_threads_partial.

(** Exactly: without clashes there is never a data race, and any two calls that clash and have something to do can race. *)
Theorem C150_no_race_partial : forall P s0 s, overlapped P s0 apart s -> ~ racing s.
Proof. exact apart_no_race. Qed.
Print Assumptions C150_no_race_partial.
Theorem C150_clashes_race : forall P s0 rest c d, Forall iface_typed (fst s0) -> pv_size (snd s0) = 0%nat ->
  proper P (fst s0) c -> proper P (fst s0) d -> has_work (fst s0) c -> has_work (fst s0) d -> clash c d ->
  exists es s, (forall e, In e es -> exists t, e = Access t) /\
    steps P (fst s0) (Begin 0 c :: Begin 1 d :: es) (start s0 rest) = Some s /\ racing s.
Proof.
  intros P s0 rest c d T Z0 Pc Pd Wc Wd C. destruct (clash_races P s0 rest c d T Z0 Pc Pd Wc Wd C) as (es & s & A & S & R).
  exists es, s. split; [|auto]. intros e He. eapply Forall_forall in A; eauto.
Qed.
Print Assumptions C150_clashes_race.

(** A call that runs alone is the call of the sequential model (so the programs of OverlapModel.v are those functions). *)
Theorem C150_alone : forall P s0 rest c, Forall iface_typed (fst s0) -> pv_size (snd s0) = 0%nat -> proper P (fst s0) c ->
  exists n r s1 s, steps P (fst s0) (Begin 0 c :: repeat (Access 0) n ++ [End 0]) (start s0 rest) = Some s /\
    serve P c s0 = Ret (r, s1) /\ log s = [(0%nat, c, Ret r)] /\ holds_state (mem_of s) s1.
Proof.
  intros P s0 rest c T Z0 Pc.
  assert (G : good (fst s0) s0) by (constructor; auto; reflexivity).
  destruct (refine P (fst s0) c s0 (memory_of s0 rest) G (holds_start s0 rest) Pc) as (r & s1 & E & R & H & _).
  destruct (run_steps P (fst s0) (program P (fst s0) c) (memory_of s0 rest) (set_thread 0 (Some (c, program P (fst s0) c)) (fun _ => None)) 0 c [])
    as (n & d' & S); [apply set_same|].
  eexists n, r, s1, _. split; [|split; [exact E|]].
  - change (Begin 0 c :: repeat (Access 0) n ++ [End 0]) with ([Begin 0 c] ++ repeat (Access 0) n ++ [End 0]).
    erewrite steps_app; [|reflexivity]. exact S.
  - cbn [log mem_of app]. rewrite R. auto.
Qed.
Print Assumptions C150_alone.

(** A thread writes to the first interface while another reads from the second and a third waits in select; every hypothesis holds. *)
Definition two_interfaces : state := ([iface_make 0 "can0" 3; iface_make 1 "can1" 5], pvec_new).
Definition receiving1 : call := Read 1 1 0 [bus_message] (repeat no_frame 4) 0.
Definition waiting : call := Select (SCall 1000 true (fun _ => (1, [0; POLLIN])) (Some 2%nat)).
Definition meanwhile : list event :=
  [Access 2; Access 0; Access 1; Access 2; Access 2; Access 0; Access 1; Access 1;
   Access 0; Access 0; End 0; Access 1; Access 1; Access 1; Access 1; Access 1; Access 1; End 1; Access 2; Access 2; Access 2; End 2].
Definition together : list event := [Begin 0 sending; Begin 1 receiving1; Begin 2 waiting] ++ meanwhile.
Example C150_case : exists s, overlapped lp64 two_interfaces apart s /\ quiet s /\
  answers_of (log s) = [Ret (RWrite Success 1 (Some [CanFd (CAN_EFF_FLAG + 0x111) 1 (7 :: repeat 0 63)]));
                        Ret (RRead Success 1 (Frame (CAN_EFF_FLAG + 0x222) (9 :: repeat 0 63) 1 0 :: repeat no_frame 3));
                        Ret (RSelect (Returned Success (PollRequest [(3, 3); (5, 3)] 0 1000)))].
Proof.
  assert (K : match steps lp64 (fst two_interfaces) together (start two_interfaces nothing) with
              | Some s => doing s 0%nat = None /\ doing s 1%nat = None /\ doing s 2%nat = None /\
                  answers_of (log s) = [Ret (RWrite Success 1 (Some [CanFd (CAN_EFF_FLAG + 0x111) 1 (7 :: repeat 0 63)]));
                        Ret (RRead Success 1 (Frame (CAN_EFF_FLAG + 0x222) (9 :: repeat 0 63) 1 0 :: repeat no_frame 3));
                        Ret (RSelect (Returned Success (PollRequest [(3, 3); (5, 3)] 0 1000)))]
              | None => False end).
  { vm_compute. repeat split; reflexivity. }
  destruct (steps lp64 (fst two_interfaces) together (start two_interfaces nothing)) as [s|] eqn:E; [|contradiction].
  destruct K as (K0 & K1 & K2 & KL). pose proof E as E0. exists s. split; [|split; [|exact KL]].
  - apply steps_split in E. destruct E as (s3 & E3 & E). apply (continue_apart lp64 two_interfaces meanwhile s3); auto.
    + unfold meanwhile. repeat (constructor; [exact Logic.I|]). constructor.
    + apply (three_begin lp64 two_interfaces nothing sending receiving1 waiting s3); auto.
      * split; [lia|]. apply (sending_proper lp64).
      * split; [lia|]. apply (receiving_proper lp64).
      * vm_compute. discriminate.
      * intros [(N & Q & _)|(Q & _)]; discriminate Q.
      * intros [(N & Q & _)|(_ & Q)]; [now apply N|discriminate Q].
      * intros [(N & Q & _)|(_ & Q)]; [now apply N|discriminate Q].
  - intros [|[|[|t]]]; auto. apply (idle_stays lp64 (fst two_interfaces) (S (S (S t))) together (start two_interfaces nothing) s); [|reflexivity|exact E0].
    unfold together, meanwhile. cbn [app]. repeat (constructor; [first [exact Logic.I|discriminate]|]). constructor.
Qed.
