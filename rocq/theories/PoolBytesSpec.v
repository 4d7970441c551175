(** What a client of the pool knows, byte by byte, from the calls it made and their results (most recent first). *)
From Coq Require Import ZArith Bool List.
From Verif Require Import Outcome PoolModel PoolBytesModel.
Import ListNotations.
Open Scope Z_scope.

(** A platform: the address space is large enough and null is not the address of a block. *)
Definition wf_layout (L : layout) : Prop :=
  (0 < l_num L)%nat /\ 0 < l_bs L /\ (0 < l_ps L)%nat /\ 0 < l_al L /\
  0 < l_base L /\ l_end L <= 256 ^ Z.of_nat (l_ps L).

Definition btrace : Type := list (bop * bobs).

(** The addresses handed out and not yet returned. *)
Fixpoint addresses (tr : btrace) : list Z :=
  match tr with
  | [] => []
  | (BAlloc _ _, BPtr a) :: t => if a =? 0 then addresses t else a :: addresses t
  | (BFree a, _) :: t => remove Z.eq_dec a (addresses t)
  | _ :: t => addresses t
  end.

(** The byte last written to an address since the block of [bs] bytes around it was handed out. *)
Fixpoint written_byte (bs : Z) (tr : btrace) (x : Z) : option Z :=
  match tr with
  | [] => None
  | (BWrite a l, _) :: t =>
      if (a <=? x) && (x <? a + Z.of_nat (length l)) then Some (nth (Z.to_nat (x - a)) l 0) else written_byte bs t x
  | (BAlloc _ _, BPtr a) :: t => if negb (a =? 0) && (a <=? x) && (x <? a + bs) then None else written_byte bs t x
  | _ :: t => written_byte bs t x
  end.

(** The [k] bytes from [a] on lie in a block the client holds. *)
Definition own (L : layout) (tr : btrace) (a : Z) (k : nat) : Prop :=
  exists b, In b (addresses tr) /\ b <= a /\ a + Z.of_nat k <= b + l_bs L.

(** The client obeys the ownership rules. *)
Definition blegal (L : layout) (tr : btrace) (o : bop) : Prop :=
  match o with
  | BAlloc _ _ => True
  | BFree a => a = 0 \/ In a (addresses tr)
  | BWrite a l => own L tr a (length l)
  | BRead a k => own L tr a k
  end.

Inductive bhistory (L : layout) (exc : bool) : btrace -> bpool -> Prop :=
  | bhistory_init : bhistory L exc [] (bpool_init L)
  | bhistory_step : forall tr s o r s',
      bhistory L exc tr s -> blegal L tr o -> bstep L exc o s = Ret (r, s') -> bhistory L exc ((o, r) :: tr) s'.

(** What the client must not do, whether or not it holds the block: touch anything but storage_, return anything but the
    address of a block. *)
Definition in_storage (L : layout) (a : Z) (k : nat) : Prop :=
  l_base L <= a /\ a + Z.of_nat k <= l_base L + Z.of_nat (l_num L) * l_stride L.
Definition a_block (L : layout) (a : Z) : Prop := exists i, (i < l_num L)%nat /\ a = l_base L + Z.of_nat i * l_stride L.
Definition wild (L : layout) (o : bop) : Prop :=
  match o with
  | BAlloc _ _ => False
  | BFree a => a <> 0 /\ ~ a_block L a
  | BWrite a l => ~ in_storage L a (length l)
  | BRead a k => ~ in_storage L a k
  end.
