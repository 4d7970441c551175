(** C138: a value put into a frame by one program is the value another program takes out of it. *)
From Coq Require Import ZArith Bool String List Lia.
From Verif Require Import Outcome ResultModel CanFrameModel CanFrameSpec CanFrameProofs SocketCanModel SocketCanSpec BitCopyModel BitCopySpec
  WireSpec FieldSpec FieldProofs.
Import ListNotations.
Open Scope Z_scope.

(** C138. Full claim: for every length code 0 to 15, every run of whole bytes [o] up to [l] within the frame's length, the
    bytes packed by the sender are the bytes the receiver extracts. This holds if the field ends within as many bytes as the
    code's number and the code is at most 12, which covers every field of every frame of up to eight bytes... *)
Theorem C138_field_sent_is_field_received_partial : forall sw value scratch dst o l id dlc ts f g,
  10 <= sw -> byte_array sw value -> byte_array sw scratch -> byte_array sw dst -> 0 <= o < l ->
  l <= Z.of_nat (length value) -> l <= Z.of_nat (length scratch) -> l <= Z.of_nat (length dst) ->
  l <= dlc <= 12 -> field_framed sw value scratch o l id dlc ts f -> crosses f g ->
  exists dst', field_extracted sw g dst o l dst' /\ length dst' = length dst /\
    forall i, nth i dst' 0 = if (o <=? Z.of_nat i) && (Z.of_nat i <? l) then nth i value 0 else nth i dst 0.
Proof. exact field_arrives. Qed.
Print Assumptions C138_field_sent_is_field_received_partial.

(** ...and for no other field: whatever its place, the frame's identifier and time, there is a value that is lost. *)
Theorem C138_field_sent_is_field_received_refuted : forall sw o l id dlc ts,
  10 <= sw -> 0 <= id < 2 ^ 32 -> identifier id <> 0 -> 0 <= dlc <= 15 ->
  0 <= o < l -> l <= iso_length dlc -> ~ (l <= dlc <= 12) ->
  exists value scratch dst f g dst', byte_array sw value /\ byte_array sw scratch /\ byte_array sw dst /\
    l <= Z.of_nat (length value) /\ l <= Z.of_nat (length scratch) /\ l <= Z.of_nat (length dst) /\
    field_framed sw value scratch o l id dlc ts f /\ crosses f g /\ field_extracted sw g dst o l dst' /\
    nth (Z.to_nat (l - 1)) dst' 0 <> nth (Z.to_nat (l - 1)) value 0.
Proof. exact field_lost. Qed.
Print Assumptions C138_field_sent_is_field_received_refuted.

(** Examples: bytes 2 to 5 of a frame of eight bytes cross; bytes 8 to 11 of a frame of twelve (code 9) meet the hypotheses of
    the second theorem. *)
Definition ex_value : list Z := [1; 2; 3; 4; 5; 6; 7; 8].
Definition ex_field : frame := Frame 0x123 ([0; 0; 3; 4; 5; 6; 0; 0] ++ repeat 0 56) 8 0.
Example C138_case : field_framed 64 ex_value (repeat 0 8) 2 6 0x123 8 0 ex_field /\ (exists g, crosses ex_field g) /\
  byte_array 64 ex_value /\ 6 <= 8 <= 12.
Proof.
  split; [exists [0; 0; 3; 4; 5; 6; 0; 0], 32; split; reflexivity|]. split.
  - destruct (can_cross ex_field) as [c C]; [split; [reflexivity|cbn; lia]|cbn; lia|discriminate| |eexists; exact C].
    apply Forall_forall. intros x Hx. cbn in Hx. repeat (destruct Hx as [<-|Hx]; [lia|]). contradiction.
  - split; [split; [intros i; do 9 (destruct i as [|i]; [cbn; lia|]); cbn; lia|reflexivity]|lia].
Qed.
Example C138_lost_case : 0 <= 8 < 12 /\ 12 <= iso_length 9 /\ ~ (12 <= 9 <= 12) /\ identifier 0x123 <> 0.
Proof. split; [lia|]. split; [cbn; lia|]. split; [lia|discriminate]. Qed.
