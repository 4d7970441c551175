(** Model of std::vector used with PoolAllocator as in libuavcan_validation_suite/include/lvs/platform/memory.hpp lines
    166-254, over the byte-level pool. What the vector does is what [vector] of the C++ standard and libstdc++ say; how much
    capacity it asks for is left open (a parameter of the call). Elements are trivially copyable objects of [tsz] bytes;
    an element is the list of its bytes. The spurious failures of the pool's compare-exchange are left out (C45 shows that
    they are invisible). *)
From Coq Require Import ZArith Bool List.
From Verif Require Import Outcome CanFrameModel PoolModel PoolBytesModel.
Import ListNotations.
Open Scope Z_scope.

(** The value_type of lvs/platform/memory.hpp lines 215-249. *)
Definition elem := list Z.

(** A vector: where its elements are (0: nowhere), size() and capacity(). As in lvs/platform/memory.hpp lines 215-249. *)
Record vec : Type := Vec { vdata : Z; vsize : nat; vcap : nat }.
(** lvs/platform/memory.hpp lines 217, 233 and 245. *)
Definition vec_empty : vec := Vec 0 0 0.

(** All vectors of a program that share one pool (PoolAllocator's rebind and getReference, memory.hpp lines 222-225 and
    238-242, give every one of them the same StaticMemoryPool). *)
Record world : Type := World { wpool : bpool; wvecs : list vec }.

(** As in lvs/platform/memory.hpp lines 217-249. *)
Inductive vop : Type :=
  | VPush (v : nat) (x : elem) (newcap : nat)      (* push_back, emplace_back *)
  | VPop (v : nat)                                 (* pop_back *)
  | VReserve (v : nat) (m newcap : nat)            (* reserve(m) *)
  | VShrink (v : nat) (honoured : bool)            (* shrink_to_fit: not binding *)
  | VClear (v : nat)
  | VDestroy (v : nat)                             (* destructor, followed by the construction of an empty vector *)
  | VSet (v i : nat) (x : elem)                    (* v[i] = x *)
  | VGet (v i : nat).                              (* v[i] *)

(** What the calls of lvs/platform/memory.hpp lines 217-249 end with. *)
Inductive vobs : Type := VOk | VElem (x : elem) | VLengthError | VBadAlloc.

(** Access to the bytes of some elements; no bytes, no access. In memory that memory.hpp lines 278-281 handed out. *)
Definition put_bytes (L : layout) (a : Z) (l : list Z) (s : bpool) : outcome bpool :=
  match l with [] => Ret s | _ => bwrite L a l s end.
(** In memory that memory.hpp lines 278-281 handed out. *)
Definition take_bytes (L : layout) (a : Z) (k : nat) (s : bpool) : outcome (list Z) :=
  match k with O => Ret [] | _ => bread L a k s end.

(** The elements move to a new array of [newcap] elements; [extra] is constructed behind them first. PoolAllocator::allocate
    (memory.hpp lines 278-281) receives the number of elements; if it returns null (no exceptions) the vector uses it. *)
Definition relocate (L : layout) (exc : bool) (tsz : nat) (v : vec) (newcap : nat) (extra : list elem) (s : bpool)
  : outcome (option vec * bpool) :=
  let* (r, s1) := ballocate L exc (Z.of_nat newcap) 0 s in
  match r with
  | BPtr p =>
      if p =? 0 then UB
      else
        let* s2 := put_bytes L (p + Z.of_nat (vsize v * tsz)) (concat extra) s1 in
        let* old := take_bytes L (vdata v) (vsize v * tsz) s2 in
        let* s3 := put_bytes L p old s2 in
        let* s4 := bdeallocate L (vdata v) s3 in
        Ret (Some (Vec p (vsize v + length extra) newcap), s4)
  | _ => Ret (None, s1)
  end.

(** One call. vector::max_size is the allocator's max_size (memory.hpp lines 301-304). Calls on a vector that does not
    exist, pop_back of an empty vector and an index beyond size() are undefined. *)
Definition vstep (L : layout) (exc : bool) (tsz : nat) (o : vop) (w : world) : outcome (vobs * world) :=
  let s := wpool w in
  let put (i : nat) (v : vec) (s' : bpool) := World s' (replace_nth i v (wvecs w)) in
  match o with
  | VPush i x newcap =>
      match nth_error (wvecs w) i with
      | None => UB
      | Some v =>
          if (vsize v <? vcap v)%nat
          then let* s' := put_bytes L (vdata v + Z.of_nat (vsize v * tsz)) x s in
               Ret (VOk, put i (Vec (vdata v) (vsize v + 1) (vcap v)) s')
          else if max_size (l_bs L) <=? Z.of_nat (vsize v) then Ret (VLengthError, w)
          else let* (v', s') := relocate L exc tsz v newcap [x] s in
               match v' with Some v' => Ret (VOk, put i v' s') | None => Ret (VBadAlloc, World s' (wvecs w)) end
      end
  | VPop i =>
      match nth_error (wvecs w) i with
      | None => UB
      | Some v => match vsize v with O => UB | S n => Ret (VOk, put i (Vec (vdata v) n (vcap v)) s) end
      end
  | VReserve i m newcap =>
      match nth_error (wvecs w) i with
      | None => UB
      | Some v =>
          if max_size (l_bs L) <? Z.of_nat m then Ret (VLengthError, w)
          else if (m <=? vcap v)%nat then Ret (VOk, w)
          else let* (v', s') := relocate L exc tsz v newcap [] s in
               match v' with Some v' => Ret (VOk, put i v' s') | None => Ret (VBadAlloc, World s' (wvecs w)) end
      end
  | VShrink i honoured =>
      match nth_error (wvecs w) i with
      | None => UB
      | Some v =>
          if negb honoured || (vcap v =? vsize v)%nat then Ret (VOk, w)
          else match vsize v with
               | O => let* s' := bdeallocate L (vdata v) s in Ret (VOk, put i vec_empty s')
               | _ => let* (v', s') := relocate L exc tsz v (vsize v) [] s in
                      match v' with Some v' => Ret (VOk, put i v' s') | None => Ret (VOk, World s' (wvecs w)) end
               end
      end
  | VClear i =>
      match nth_error (wvecs w) i with
      | None => UB
      | Some v => Ret (VOk, put i (Vec (vdata v) 0 (vcap v)) s)
      end
  | VDestroy i =>
      match nth_error (wvecs w) i with
      | None => UB
      | Some v => let* s' := bdeallocate L (vdata v) s in Ret (VOk, put i vec_empty s')
      end
  | VSet i j x =>
      match nth_error (wvecs w) i with
      | None => UB
      | Some v => if (j <? vsize v)%nat
                  then let* s' := put_bytes L (vdata v + Z.of_nat (j * tsz)) x s in Ret (VOk, World s' (wvecs w))
                  else UB
      end
  | VGet i j =>
      match nth_error (wvecs w) i with
      | None => UB
      | Some v => if (j <? vsize v)%nat
                  then let* l := take_bytes L (vdata v + Z.of_nat (j * tsz)) tsz s in Ret (VElem l, w)
                  else UB
      end
  end.

(** [k] new vectors over a new pool. As at lvs/platform/memory.hpp lines 217, 233 and 245. *)
Definition world_init (L : layout) (k : nat) : world := World (bpool_init L) (repeat vec_empty k).

(** Any calls such as those of lvs/platform/memory.hpp lines 217-249. *)
Fixpoint vrun (L : layout) (exc : bool) (tsz : nat) (ops : list vop) (w : world) : outcome (list vobs * world) :=
  match ops with
  | [] => Ret ([], w)
  | o :: t => let* (r, w1) := vstep L exc tsz o w in let* (rs, w2) := vrun L exc tsz t w1 in Ret (r :: rs, w2)
  end.

(** lvs/platform/memory.hpp lines 215-226: TestVector; [grow] answers the capacity asked for when a vector of that size is
    full. The vector is destroyed at the end. *)
Definition test_vector (grow : nat -> nat) : list vop :=
  let push n c := VPush 0 [c] (grow n) in
  [push 0%nat 104; push 1%nat 101; push 2%nat 108; push 3%nat 108; push 4%nat 111; push 5%nat 0;
   VGet 0 0; VGet 0 0; VGet 0 1; VGet 0 2; VGet 0 3; VGet 0 4; VGet 0 5; VDestroy 0].
(** lvs/platform/memory.hpp lines 231-238: TestVectorCapacity up to the first and up to the second look at the capacity. *)
Definition test_capacity_reserve (newcap : nat) : list vop := [VReserve 0 10 newcap].
(** lvs/platform/memory.hpp lines 236-237. *)
Definition test_capacity_shrink (honoured : bool) : list vop := [VShrink 0 honoured].
(** lvs/platform/memory.hpp lines 243-249: TestEmplace. *)
Definition test_emplace (newcap : nat) : list vop := [VReserve 0 10 newcap; VPush 0 [49] newcap; VGet 0 0; VDestroy 0].

(** A node-based container such as std::unordered_map (lvs/platform/memory.hpp lines 256-303), as far as the pool is
    concerned: each insertion allocates one node and writes it; if the container decides to rehash, it allocates an array of
    [nb] bucket pointers with allocate(nb), clears it and returns the old array. What it then stores in the array, and its
    lookups, are left out. *)
Record umap : Type := Umap { ubuckets : Z; unodes : list Z }.
(** As at lvs/platform/memory.hpp lines 297-299. *)
Definition umap_insert (L : layout) (exc : bool) (node : list Z) (rehash : option nat) (m : umap) (s : bpool)
  : outcome (option umap * bpool) :=
  let* (r, s1) := ballocate L exc 1 0 s in
  match r with
  | BPtr p =>
      if p =? 0 then UB
      else
        let* s2 := put_bytes L p node s1 in
        match rehash with
        | None => Ret (Some (Umap (ubuckets m) (unodes m ++ [p])), s2)
        | Some nb =>
            let* (r', s3) := ballocate L exc (Z.of_nat nb) 0 s2 in
            match r' with
            | BPtr q =>
                if q =? 0 then UB
                else
                  let* s4 := put_bytes L q (repeat 0 (nb * l_ps L)) s3 in
                  let* s5 := bdeallocate L (ubuckets m) s4 in
                  Ret (Some (Umap q (unodes m ++ [p])), s5)
            | _ => let* s4 := bdeallocate L p s3 in Ret (None, s4)
            end
        end
  | _ => Ret (None, s1)
  end.

(** memory.hpp lines 227-229: whether the compiler accepts an allocator of blocks of [bs] bytes for objects of [tsz] bytes;
    [None] is the type void. *)
Definition allocator_accepts (tsz : option Z) (bs : Z) : bool := match tsz with None => 1 <=? bs | Some n => n <=? bs end.
