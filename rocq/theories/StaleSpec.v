(** What it means that generated files are of the sources as they are, for C166. *)
From Coq Require Import Bool List Arith.
From Verif Require Import StaleModel.
Import ListNotations.

(** The files that are there, and what is in them. *)
Definition files (s : tree) : sources := fun f => if in_dec Nat.eq_dec f (present s) then Some (version s f) else None.
(** Every definition that is there has the header nnvg would make now. *)
Definition complete (g : nnvg) (s : tree) : Prop := forall d, is_definition g d = true -> In d (present s) ->
  exists t, headers s d = Some (generate g (files s) d, t).
(** And there are no other headers. *)
Definition no_others (g : nnvg) (s : tree) : Prop := forall d, is_definition g d = true -> ~ In d (present s) -> headers s d = None.

(** What can be said of any sensible generator: whether it accepts files depends on the files, and files added to a set it accepts do not change the header
    of a definition in that set. *)
Definition sensible (g : nnvg) : Prop :=
  (forall fs fs', (forall f, fs f = fs' f) -> accepts g fs = accepts g fs') /\
  (forall fs fs' d, accepts g fs = true -> fs d <> None -> (forall f v, fs f = Some v -> fs' f = Some v) -> generate g fs' d = generate g fs d).

(** One for examples: file 0 is the template and must be there; definition 1 has a field of type 2 if it says 7; a header tells all that it was made from. *)
Definition sample : nnvg := Nnvg (fun f => negb (f =? 0))
  (fun fs => match fs 0, fs 1, fs 2 with
             | None, _, _ => false
             | Some _, Some 7, None => false
             | _, _, _ => true
             end)
  (fun fs d => match fs d with
               | Some v => v + 10 * match fs 0 with Some t => t | None => 0 end +
                   100 * (if (d =? 1) && (v =? 7) then match fs 2 with Some w => w | None => 0 end else 0)
               | None => 0
               end).

(** Nothing in these events makes doxygen run again after build number b. *)
Definition quiet (b : nat) (l : list event) : Prop := forall e, In e l -> match e with Setup b' => b' = b | Wipe => False | _ => True end.
