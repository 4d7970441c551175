(** What is loaded into the board, in terms of the edits of the sources. *)
From Coq Require Import Bool List Arith.
From Verif Require Import FlashModel.
Import ListNotations.

(** The sources after a history. *)
Fixpoint edited (v : nat) (h : list step) : nat :=
  match h with
  | [] => v
  | Edit v' :: h' => edited v' h'
  | _ :: h' => edited v h'
  end.

(** After [h], flashing loads [i]. *)
Definition loads (deletes : bool) (h : list step) (i : image) : Prop :=
  exists t j, snd (flash deletes t j (history deletes h)) = Some i.

(** The troubles met in a history are among those that [may] happen. *)
Definition meets (may : trouble -> Prop) (h : list step) : Prop :=
  forall s, In s h -> match s with Build t | Flash t _ => may t | _ => True end.

(** Troubles that do no harm: the program is newer than the sources only if the hex file is made from it or is not there. *)
Definition harmless (deletes : bool) (t : trouble) : Prop :=
  t <> Killed Link /\ t <> Killed ToHex /\ (deletes = false -> t <> Fails ToHex true).

(** After [h] a build succeeds and leaves the binary file [i]. *)
Definition leaves_binary (deletes : bool) (h : list step) (i : image) : Prop :=
  exists t f, build deletes t (history deletes h) = (f, true) /\ bin f = Some i.

(** Troubles that do no harm to the binary file: a program newer than the sources beside a binary file that was not made from it. *)
Definition harmless_to_binary (deletes : bool) (t : trouble) : Prop :=
  t <> Killed Link /\ t <> Killed ToHex /\ t <> Killed ToBin /\
  (deletes = false -> t <> Fails ToHex true /\ t <> Fails ToHex false /\ t <> Fails ToBin true).
