(** What a program that uses vectors over the pool expects: each vector is the list of its elements. *)
From Coq Require Import ZArith Bool List.
From Verif Require Import Outcome CanFrameModel PoolModel PoolBytesModel ContainerModel.
Import ListNotations.
Open Scope Z_scope.

Definition contents := list (list elem).
Definition the (v : nat) (cs : contents) : list elem := nth v cs [].

(** The effect of a call that succeeds. *)
Definition after (o : vop) (cs : contents) : contents :=
  match o with
  | VPush v x _ => replace_nth v (the v cs ++ [x]) cs
  | VPop v => replace_nth v (removelast (the v cs)) cs
  | VReserve _ _ _ | VShrink _ _ | VGet _ _ => cs
  | VClear v | VDestroy v => replace_nth v [] cs
  | VSet v i x => replace_nth v (replace_nth i x (the v cs)) cs
  end.

(** The rules of std::vector: the vector exists, elements have the size of their type, indices are in range. A new capacity
    exceeds the size and does not exceed max_size(), which is the block size. *)
Definition vlegal (bs : Z) (tsz : nat) (cs : contents) (o : vop) : Prop :=
  match o with
  | VPush v x newcap =>
      (v < length cs)%nat /\ length x = tsz /\
      (Z.of_nat (length (the v cs)) < bs -> (length (the v cs) < newcap)%nat /\ Z.of_nat newcap <= bs)
  | VReserve v m newcap => (v < length cs)%nat /\ (Z.of_nat m <= bs -> (m <= newcap)%nat /\ Z.of_nat newcap <= bs)
  | VPop v => (v < length cs)%nat /\ the v cs <> []
  | VShrink v _ | VClear v | VDestroy v => (v < length cs)%nat
  | VSet v i x => (v < length cs)%nat /\ (i < length (the v cs))%nat /\ length x = tsz
  | VGet v i => (v < length cs)%nat /\ (i < length (the v cs))%nat
  end.

(** The array asked for fits into [room] bytes. *)
Definition vfits (room : Z) (tsz : nat) (o : vop) : Prop :=
  match o with
  | VPush _ _ newcap | VReserve _ _ newcap => Z.of_nat (newcap * tsz) <= room
  | _ => True
  end.

(** The call asks for more than max_size(). *)
Definition too_long (bs : Z) (cs : contents) (o : vop) : Prop :=
  match o with
  | VPush v _ _ => bs <= Z.of_nat (length (the v cs))
  | VReserve _ m _ => bs < Z.of_nat m
  | _ => False
  end.

Definition failed (r : vobs) : bool := match r with VLengthError | VBadAlloc => true | _ => false end.

(** All histories of [k] vectors that share a pool; [cs] are the lists they should hold. A failed call has no effect. *)
Inductive lhistory (L : layout) (exc : bool) (tsz k : nat) : contents -> world -> Prop :=
  | lhistory_init : lhistory L exc tsz k (repeat [] k) (world_init L k)
  | lhistory_step : forall cs w o r w',
      lhistory L exc tsz k cs w -> vlegal (l_bs L) tsz cs o -> vstep L exc tsz o w = Ret (r, w') ->
      lhistory L exc tsz k (if failed r then cs else after o cs) w'.

(** Those in which every array that is not refused for its length fits into the distance of two blocks, sizeof(Block). *)
Inductive vhistory (L : layout) (exc : bool) (tsz k : nat) : contents -> world -> Prop :=
  | vhistory_init : vhistory L exc tsz k (repeat [] k) (world_init L k)
  | vhistory_step : forall cs w o r w',
      vhistory L exc tsz k cs w -> vlegal (l_bs L) tsz cs o ->
      too_long (l_bs L) cs o \/ vfits (l_stride L) tsz o ->
      vstep L exc tsz o w = Ret (r, w') ->
      vhistory L exc tsz k (if failed r then cs else after o cs) w'.

(** The vectors that occupy a block. *)
Definition users (w : world) : nat := length (List.filter (fun v => negb (vcap v =? 0)%nat) (wvecs w)).

(** The call has to find a new block. *)
Definition needs_block (o : vop) (w : world) : Prop :=
  match o with
  | VPush v _ _ => exists x, nth_error (wvecs w) v = Some x /\ vsize x = vcap x
  | VReserve v m _ => exists x, nth_error (wvecs w) v = Some x /\ (vcap x < m)%nat
  | VShrink v honoured => honoured = true /\ exists x, nth_error (wvecs w) v = Some x /\ (0 < vsize x < vcap x)%nat
  | _ => False
  end.

(** What a call reports if it needs a block and there is none; shrink_to_fit is allowed to do nothing. *)
Definition refusal (o : vop) : vobs := match o with VShrink _ _ => VOk | _ => VBadAlloc end.

(** The histories of one node-based container; [nodes] are the bytes written to its nodes. *)
Inductive mhistory (L : layout) (exc : bool) : list (list Z) -> umap -> bpool -> Prop :=
  | mhistory_init : mhistory L exc [] (Umap 0 []) (bpool_init L)
  | mhistory_step : forall nodes m s node rehash r s',
      mhistory L exc nodes m s -> Z.of_nat (length node) <= l_bs L ->
      match rehash with Some nb => (0 < nb)%nat /\ Z.of_nat (nb * l_ps L) <= l_bs L | None => True end ->
      umap_insert L exc node rehash m s = Ret (r, s') ->
      mhistory L exc (match r with Some _ => nodes ++ [node] | None => nodes end)
        (match r with Some m' => m' | None => m end) s'.

(** The blocks it occupies. *)
Definition occupied (m : umap) : nat := (length (unodes m) + (if (ubuckets m =? 0)%Z then 0 else 1))%nat.

(** An object of [tsz] bytes that needs an address divisible by [tal] can live at address [a], where the client has a block
    of [bs] bytes. *)
Definition hosts (a bs tsz tal : Z) : Prop := tsz <= bs /\ (tal | a).
