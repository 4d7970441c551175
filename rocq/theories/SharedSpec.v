(** Which flags the googletest is compiled with that tests are linked with, in terms of what was configured when. *)
From Coq Require Import Bool List Arith.
From Verif Require Import SharedModel.
Import ListNotations.

(** How build directory [b] was configured last. *)
Fixpoint last_configured (b : nat) (h : list act) : option (flavour * bool) :=
  match h with
  | [] => None
  | a :: h' =>
      match last_configured b h' with
      | Some x => Some x
      | None => match a with Configure b' k own => if b' =? b then Some (k, own) else None | Make _ _ => None end
      end
  end.

(** The flavour of the last build directory configured that does not build its own googletest. *)
Fixpoint last_shared (h : list act) : option flavour :=
  match h with
  | [] => None
  | a :: h' =>
      match last_shared h' with
      | Some k => Some k
      | None => match a with Configure _ k false => Some k | _ => None end
      end
  end.

(** After history [h], make in [b] links tests with members compiled as [m] says; [l] are the source files of the library. *)
Definition links (l : list nat) (h : list act) (b : nat) (m : list flavour) : Prop :=
  exists n, snd (perform l (history l h) (Make b n)) = Some m.
