(** C86, C87: the example program as a whole. *)
From Coq Require Import ZArith Bool String List Lia Permutation.
From Verif Require Import Outcome ResultModel CanFrameModel SocketCanModel SocketCanSpec GroupModel ManagerModel ManagerSpec
  ParseArgsModel ParseArgsSpec LoopBackModel LoopBackSpec MainModel MainProofs Props_Group Props_Manager Props_LoopBack.
Import ListNotations.
Open Scope Z_scope.

(** C86, for every command line made of documented options that does not use --device after another device (C77: that is
    undefined). [ans] are what the kernel answered on each interface in the course of the run and [ups] the interfaces that
    came up. *)
Theorem C86_exit_status : forall l fuel kernel send rounds w,
  ~ late_long_device l -> (length (devices l) <= 255)%nat -> (length l < fuel)%nat -> rounds_ok 255 rounds ->
  (devices l = [] -> main fuel (command_line l) kernel send rounds w = Some (Ret (-1, w))) /\
  (devices l <> [] ->
   exists ans tr ups, answered kernel (devices l) tr ans /\ up_positions (Manager (devices l) true true) ans ups /\
    match main fuel (command_line l) kernel send rounds w with
    | Some UB => False
    | Some (Ret (code, w')) =>
        (exists more, w_trace w' = (tr ++ more)%list) /\
        (code = 0 \/ code = -1) /\
        (code = 0 <-> ups <> [] /\ accepted send (length ups) /\ all_arrived (in_time rounds) (length ups))
    | None => ups <> [] /\ accepted send (length ups) /\ in_time rounds = rounds /\
        (continuous l = true \/ ~ all_arrived rounds (length ups))
    end).
Proof. exact main_exit. Qed.
Print Assumptions C86_exit_status.
(** With more than 255 devices the program never comes to an end, whatever the kernel answers. *)
Theorem C86_more_than_255_devices : forall l fuel kernel send rounds w,
  ~ late_long_device l -> (255 < length (devices l))%nat -> (length l < fuel)%nat ->
  main fuel (command_line l) kernel send rounds w = None.
Proof. exact main_too_many. Qed.
Print Assumptions C86_more_than_255_devices.
Example C86_more_case : let l := repeat (ShortDevice "vcan0") 256 in ~ late_long_device l /\ (255 < length (devices l))%nat.
Proof.
  cbn zeta. split.
  - intros (before & n & after & E & _).
    assert (I : In (LongDevice n) (repeat (ShortDevice "vcan0") 256)) by (rewrite E; apply in_or_app; right; now left).
    apply repeat_spec in I. discriminate.
  - apply Compare_dec.leb_complete. vm_compute. reflexivity.
Qed.

(** Two interfaces are asked for and come up; everything arrives within the first two rounds of [ex_rounds], not in the first. *)
Example C86_case :
  let l := [LongDevice "vcan0"; ShortDevice "vcan1"] in
  let send := fun (_ : nat) (msgs : list canfd) => (Z.of_nat (length msgs), 0) in
  let run := fun rounds => match main 9 (command_line l) (ex_answers (fun _ => false)) send rounds (World [] []) with
                           | Some (Ret (code, w)) => Some (code, w_trace w) | _ => None end in
  ~ late_long_device l /\
  run ex_rounds = Some (0, [Opened 3; Opened 4; Closed 3; Closed 4]) /\
  run (firstn 1 ex_rounds ++ skipn 2 ex_rounds)%list = Some (-1, [Opened 3; Opened 4; Closed 3; Closed 4]) /\
  run (firstn 1 ex_rounds) = None.
Proof.
  cbn zeta. split; [|vm_compute; auto].
  intros (before & n & after & E & D). destruct before as [|x [|y before]]; cbn [app] in E; try discriminate.
  - apply D. reflexivity.
  - injection E as _ _ E. destruct before; discriminate.
Qed.

(** C87, for every argument vector whatsoever. [live] are the descriptors open at the beginning. Full statement: whenever
    fresh_descriptors live kernel, NoDup live and main returns, the descriptors open afterwards are a permutation of live.
    False if descriptor 0 is free: the program takes a socket with that number for a failure and never closes it. *)
Theorem C87_every_socket_closed_refuted : exists fuel args kernel send rounds live code w' live',
  fresh_descriptors live kernel /\ NoDup live /\
  main fuel args kernel send rounds (World [] []) = Some (Ret (code, w')) /\
  replay live (w_trace w') = Some live' /\ ~ Permutation live' live.
Proof.
  exists 5%nat, ["-d"; "vcan0"]%string, (fun _ tr => Answers (match tr with [] => 0 | _ => -1 end) 0 0 0 0 0 0 ex_sockopt),
    (fun _ _ => (2, 0)), [], [1; 2], (-1). do 2 eexists.
  split; [|split; [|split; [vm_compute; reflexivity|split; [vm_compute; reflexivity|]]]].
  - intros t [|e tr] now R; cbn [a_socket]; [|lia]. injection R as <-. cbn. intuition lia.
  - repeat constructor; cbn; intuition lia.
  - intros P. apply Permutation_length in P. discriminate.
Qed.
Print Assumptions C87_every_socket_closed_refuted.
(** At most descriptor 0 stays open in addition to what was open before. *)
Theorem C87_only_descriptor_0_stays_open : forall fuel args kernel send rounds live log code w',
  fresh_descriptors live kernel -> NoDup live ->
  main fuel args kernel send rounds (World [] log) = Some (Ret (code, w')) ->
  exists live' leaked, replay live (w_trace w') = Some live' /\ NoDup live' /\ Forall (eq 0) leaked /\
    Permutation live' (live ++ leaked).
Proof. exact main_live. Qed.
Print Assumptions C87_only_descriptor_0_stays_open.
(** Everything is closed if descriptor 0 is open at the beginning, as standard input normally is. *)
Theorem C87_every_socket_closed_partial : forall fuel args kernel send rounds live log code w',
  fresh_descriptors live kernel -> NoDup live -> In 0 live ->
  main fuel args kernel send rounds (World [] log) = Some (Ret (code, w')) ->
  exists live', replay live (w_trace w') = Some live' /\ Permutation live' live.
Proof. exact main_sockets. Qed.
Print Assumptions C87_every_socket_closed_partial.
(** The second interface does not come up and the kernel refuses the frames of the last one. *)
Example C87_case :
  match main 9 ["-d"; "vcan0"; "-dvcan1"; "-d"; "vcan2"]%string (ex_descriptors (fun t => (t =? 1)%nat))
          (fun i _ => if (i =? 1)%nat then (-1, 105) else (2, 0)) ex_rounds (World [] []) with
  | Some (Ret (code, w)) => code = -1 /\ w_trace w = [Opened 3; Opened 4; Closed 4; Opened 4; Closed 3; Closed 4] /\
      replay [0; 1; 2] (w_trace w) = Some [0; 1; 2]
  | _ => False end.
Proof. vm_compute. auto. Qed.
