(** C129: frames written by some programs and read by another. *)
From Coq Require Import ZArith Bool String List Lia.
From Verif Require Import Outcome ResultModel CanFrameModel CanFrameSpec SocketCanModel SocketCanSpec GroupModel GroupSpec ManagerModel ManagerSpec
  ClientModel ClientSpec WireSpec TrafficSpec NetworkSpec NetworkProofs Props_SocketCan Props_Group Props_Manager Props_Wire Props_Client
  Props_Traffic.
Import ListNotations.
Open Scope Z_scope.

(** C129. Any number of programs write frames to a bus, in any number of calls, and the bus carries what their kernels took, in
    some order. A program whose socket got what passes its filters reads, in order and once each, the frames that were
    reported as written and that its filters select: a first part of them, and all of them if nothing waits.

    Full statement: each frame read is equal to the frame written, [frame_eq 0 g f = Ret true] below without a condition. That
    holds exactly for the frames that fit the bus (C95). *)
Theorem C129_frames_written_are_frames_read_partial : forall ws traffic ks live m h c k j g s fs sel,
  Forall program ws -> Forall (fun w => 0 <= snd w) ws ->
  Forall (fun w => Forall (fun f => identifier (fid f) <> 0 /\ fdlc f <= 15) (written (snd w) (fst w))) ws ->
  interleaving (map (fun w => taken (snd w) (fst w)) ws) traffic -> Forall2 carried traffic ks ->
  (length (m_required m) <= 255)%nat -> NoDup live -> life live m h c k ->
  0 <= j -> cl_group c = Some g -> nth_error g (Z.to_nat j) = Some s ->
  in_force h = Some fs -> Forall id_mask fs -> Z.of_nat (length fs) < 2 ^ 29 ->
  (forall kfs, filters_of (getSocketDescriptor s) (w_filters (cl_world c)) = Some kfs ->
     arrived k (getSocketDescriptor s) = map packet_of (List.filter (fun x => kernel_passes kfs (km_id x)) ks)) ->
  (forall f, sel f = true <-> Exists (selected (fid f)) fs) ->
  exists all, interleaving (map (fun w => written (snd w) (fst w)) ws) all /\
    let sent := List.filter sel all in
    Forall2 (fun f g => identifier (fid g) = identifier (fid f) /\ (frame_eq 0 g f = Ret true <-> fits_the_bus f))
      (firstn (length (frames_read j h)) sent) (frames_read j h) /\
    (waiting k (getSocketDescriptor s) = [] -> length (frames_read j h) = length sent).
Proof. exact network. Qed.
Print Assumptions C129_frames_written_are_frames_read_partial.

(** Two programs: one writes two frames, of 8 and of 12 bytes; of the two that the other writes the kernel takes one. A third
    program, whose filter selects everything, reads all three. *)
Definition ex_takes (n : Z) : list canfd -> Z * Z := fun ms => (Z.min n (Z.of_nat (length ms)), 0).
Definition ex_all : call := Start (Some [Filter 0 0]) 1 (ex_descriptors (fun _ => false)).
Definition ex_on : client := ex_after ex_all (Client None (World [] [])).
Definition ex_write (n : Z) : call := Write (ex_takes n) 0 ex_frames 2.
Definition ex_writer (n : Z) : writer := ([(ex_write n, ex_reply (ex_write n) ex_on); (ex_all, Started Success)], 0).
Definition ex_wire : list canfd :=
  [CanFd (2 ^ 31 + 0x123) 8 (repeat 7 8 ++ repeat 0 56); CanFd (2 ^ 31 + 0x456) 9 (repeat 9 12 ++ repeat 0 52)].
Definition ex_msgs : list kmsg := hd (KMsg 0 0 [] [] 0) ex_carried :: ex_carried.
Definition ex_takes_all : call := Read 3 0 ex_msgs 0 ex_out.
Definition ex_arrive (k : sockets) (x : kmsg) : sockets := ex_put (packet_of x) k.
Definition ex_came : sockets := fold_left ex_arrive ex_msgs (Sockets (fun _ => []) (fun _ => [])).
Definition ex_reader : list (call * reply) := [(ex_takes_all, ex_reply ex_takes_all ex_on); (ex_all, Started Success)].

Lemma ex_on_start : perform 4 ex_manager ex_all (Client None (World [] [])) = Some (Ret (Started Success, ex_on)).
Proof. vm_compute. reflexivity. Qed.
Lemma ex_program : forall n, n = 1 \/ n = 2 -> program (ex_writer n).
Proof.
  intros n N. exists [0; 1; 2], ex_manager, (ex_after (ex_write n) ex_on). split; [cbn; lia|]. split.
  - apply (h_call _ _ _ ex_on _ 4); [apply (h_call _ _ _ (Client None (World [] [])) _ 4); [apply h_begin| |exact ex_on_start]| |].
    + split; [cbn; lia|apply ex_descriptors_fresh].
    + split; [vm_compute; discriminate|]. split; [lia|]. split; [exact ex_frames_typed|lia].
    + destruct N as [-> | ->]; vm_compute; reflexivity.
  - constructor; [|constructor; [exact Logic.I|constructor]]. intros ms. cbn. lia.
Qed.
Lemma ex_wire_carried : Forall2 carried ex_wire ex_carried.
Proof.
  destruct C95_case as [_ C].
  assert (E : match write (ex_kernel 2 0) ex_if ex_frames 2 with Ret w => wr_sent w = Some ex_wire | UB => False end)
    by (vm_compute; reflexivity).
  destruct (write (ex_kernel 2 0) ex_if ex_frames 2) as [w|]; [|contradiction]. now rewrite E in C.
Qed.
Lemma ex_msgs_carried : Forall2 carried (hd (CanFd 0 0 []) ex_wire :: ex_wire) ex_msgs.
Proof.
  assert (C := ex_wire_carried). unfold ex_wire, ex_carried in C. unfold ex_msgs, ex_carried, ex_wire. cbn [hd].
  inversion C; subst. now constructor.
Qed.
Lemma ex_life : life [0; 1; 2] ex_manager ex_reader (ex_after ex_takes_all ex_on) (ex_then [] ex_came).
Proof.
  eapply (life_call _ _ _ ex_on ex_came ex_takes_all 4).
  - assert (A : forall x k, life [0; 1; 2] ex_manager [(ex_all, Started Success)] ex_on k -> kernel_passes [KFilter 0x80000000 0x80000000] (km_id x) = true ->
        life [0; 1; 2] ex_manager [(ex_all, Started Success)] ex_on (ex_arrive k x)).
    { intros x k L P. apply life_arrival; [exact L|vm_compute; auto|]. right. exists [KFilter 0x80000000 0x80000000].
      split; [vm_compute; reflexivity|exact P]. }
    unfold ex_came, ex_msgs, ex_carried. cbn [hd fold_left]. apply A; [apply A; [apply A|]|]; try reflexivity.
    eapply (life_call _ _ _ _ _ ex_all 4); [apply life_begin| |exact ex_on_start|intros fd; reflexivity].
    split; [cbn; lia|apply ex_descriptors_fresh].
  - split; [vm_compute; discriminate|]. split; [lia|]. split; [exact ex_out_typed|]. split; [lia|]. split; [|reflexivity].
    destruct C95_case as [T _]. unfold ex_msgs. constructor; [|exact T]. now inversion T.
  - vm_compute. reflexivity.
  - exists []. split; [|vm_compute; reflexivity]. left. split; [lia|]. split; vm_compute; reflexivity.
Qed.
Lemma ex_interleaved : interleaving (map (fun w => taken (snd w) (fst w)) [ex_writer 2; ex_writer 1]) (hd (CanFd 0 0 []) ex_wire :: ex_wire).
Proof.
  assert (E : map (fun w => taken (snd w) (fst w)) [ex_writer 2; ex_writer 1] = [ex_wire; firstn 1 ex_wire]) by (vm_compute; reflexivity).
  rewrite E. unfold ex_wire. cbn [firstn hd].
  apply (il_next []). cbn [app]. match goal with |- interleaving [?l; [?x]] _ => apply (il_next [l] x [] []) end. cbn [app].
  apply (il_next []). cbn [app]. constructor. repeat constructor.
Qed.
Example C129_case : Forall program [ex_writer 2; ex_writer 1] /\
  map (fun w => map fid (written (snd w) (fst w))) [ex_writer 2; ex_writer 1] = [[0x123; 0xE0000456]; [0x123]] /\
  interleaving (map (fun w => taken (snd w) (fst w)) [ex_writer 2; ex_writer 1]) (hd (CanFd 0 0 []) ex_wire :: ex_wire) /\
  Forall2 carried (hd (CanFd 0 0 []) ex_wire :: ex_wire) ex_msgs /\
  life [0; 1; 2] ex_manager ex_reader (ex_after ex_takes_all ex_on) (ex_then [] ex_came) /\
  in_force ex_reader = Some [Filter 0 0] /\
  map (fun f => (fid f, fdlc f)) (frames_read 0 ex_reader) = [(0x80000123, 8); (0x80000123, 8); (0x80000456, 12)].
Proof.
  split; [constructor; [|constructor; [|constructor]]; apply ex_program; auto|].
  split; [vm_compute; reflexivity|]. split; [exact ex_interleaved|]. split; [exact ex_msgs_carried|]. split; [exact ex_life|]. split; [reflexivity|].
  vm_compute. reflexivity.
Qed.

(** The third frame is not received as it was sent, whichever of the frames written it is compared with. *)
Theorem C129_frames_written_are_frames_read_refuted : exists ws traffic ks live m h c k j g s fs,
  Forall program ws /\ Forall (fun w => 0 <= snd w) ws /\
  Forall (fun w => Forall (fun f => identifier (fid f) <> 0 /\ fdlc f <= 15) (written (snd w) (fst w))) ws /\
  interleaving (map (fun w => taken (snd w) (fst w)) ws) traffic /\ Forall2 carried traffic ks /\
  (length (m_required m) <= 255)%nat /\ NoDup live /\ life live m h c k /\
  0 <= j /\ cl_group c = Some g /\ nth_error g (Z.to_nat j) = Some s /\
  in_force h = Some fs /\ Forall id_mask fs /\
  (forall kfs, filters_of (getSocketDescriptor s) (w_filters (cl_world c)) = Some kfs ->
     arrived k (getSocketDescriptor s) = map packet_of (List.filter (fun x => kernel_passes kfs (km_id x)) ks)) /\
  waiting k (getSocketDescriptor s) = [] /\
  forall all, interleaving (map (fun w => written (snd w) (fst w)) ws) all ->
    ~ Forall2 (fun f g => frame_eq 0 g f = Ret true) all (frames_read j h).
Proof.
  pose (c := ex_after ex_takes_all ex_on).
  pose (g := match cl_group c with Some g => g | None => [] end).
  exists [ex_writer 2; ex_writer 1], (hd (CanFd 0 0 []) ex_wire :: ex_wire), ex_msgs, [0; 1; 2], ex_manager, ex_reader, c, (ex_then [] ex_came).
  exists 0, g, (hd (iface_make 0 "" 0) g), [Filter 0 0].
  destruct C129_case as (PR & _ & IL & CA & LI & _).
  assert (FD : getSocketDescriptor (hd (iface_make 0 "" 0) g) = 3) by (vm_compute; reflexivity). rewrite FD.
  split; [exact PR|]. split; [repeat constructor; cbn; lia|]. split.
  { assert (B : forallb (fun w => forallb (fun f => negb (identifier (fid f) =? 0) && (fdlc f <=? 15)) (written (snd w) (fst w)))
                  [ex_writer 2; ex_writer 1] = true) by (vm_compute; reflexivity).
    rewrite forallb_forall in B. rewrite Forall_forall. intros w W. specialize (B w W). rewrite forallb_forall in B.
    rewrite Forall_forall. intros f F. specialize (B f F). apply andb_prop in B. destruct B as [B1 B2].
    apply negb_true_iff, Z.eqb_neq in B1. apply Z.leb_le in B2. auto. }
  split; [exact IL|]. split; [exact CA|]. split; [cbn; lia|]. split; [repeat constructor; cbn; intuition discriminate|].
  split; [exact LI|]. split; [lia|]. split; [vm_compute; reflexivity|]. split; [vm_compute; reflexivity|]. split; [reflexivity|].
  split; [repeat constructor; cbn; lia|]. split.
  { intros kfs K. assert (E : filters_of 3 (w_filters (cl_world c)) = Some [KFilter 0x80000000 0x80000000]) by (vm_compute; reflexivity).
    assert (kfs = [KFilter 0x80000000 0x80000000]) as -> by congruence. vm_compute. reflexivity. }
  split; [vm_compute; reflexivity|]. intros all IA F2.
  assert (N : Forall (fun f => forallb (fun g => match frame_eq 0 g f with Ret b => negb b | UB => true end) (skipn 2 (frames_read 0 ex_reader)) = true) all).
  { eapply NetworkProofs.interleaving_forall; [exact IA|].
    assert (B : forallb (fun l => forallb (fun f => forallb (fun g => match frame_eq 0 g f with Ret b => negb b | UB => true end) (skipn 2 (frames_read 0 ex_reader))) l)
                  (map (fun w => written (snd w) (fst w)) [ex_writer 2; ex_writer 1]) = true) by (vm_compute; reflexivity).
    rewrite forallb_forall in B. rewrite Forall_forall. intros l W. specialize (B l W). rewrite forallb_forall in B. now rewrite Forall_forall. }
  assert (L : length (frames_read 0 ex_reader) = 3%nat) by (vm_compute; reflexivity).
  destruct (frames_read 0 ex_reader) as [|g1 [|g2 [|g3 [|]]]]; try discriminate L.
  inversion F2 as [|a1 ? ? ? _ F3]; subst. inversion F3 as [|a2 ? ? ? _ F4]; subst. inversion F4 as [|a3 ? ? ? E _]; subst.
  inversion N as [|? ? _ N2]; subst. inversion N2 as [|? ? _ N3]; subst. inversion N3 as [|? ? N4 _]; subst.
  cbn [skipn forallb] in N4. rewrite E in N4. discriminate.
Qed.
Print Assumptions C129_frames_written_are_frames_read_refuted.
