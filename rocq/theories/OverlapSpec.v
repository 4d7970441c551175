(** Specification vocabulary for calls of an interface group that overlap in time. *)
From Coq Require Import ZArith Bool String List Permutation.
From Verif Require Import Outcome ResultModel CInt CanFrameModel SocketCanModel SocketCanSpec GroupModel PollModel OverlapModel.
Import ListNotations.
Open Scope Z_scope.

(** The interface whose frames or counters a call is about. *)
Definition interface_of (c : call) : option Z :=
  match c with
  | Write i _ _ _ _ | Read i _ _ _ _ _ | Statistics i => Some i
  | Select _ | Filters _ _ _ _ | Name _ | Count => None
  end.
Definition is_write (c : call) : bool := match c with Write _ _ _ _ _ => true | _ => false end.
Definition is_read (c : call) : bool := match c with Read _ _ _ _ _ _ => true | _ => false end.
Definition is_select (c : call) : bool := match c with Select _ => true | _ => false end.
Definition is_statistics (c : call) : bool := match c with Statistics _ => true | _ => false end.

(** Two calls that must not overlap: a read of an interface with any other call about that interface, two writes to one interface, two
    calls of select. *)
Definition clash (a b : call) : Prop :=
  (interface_of a <> None /\ interface_of a = interface_of b /\
   (is_read a = true \/ is_read b = true \/ (is_write a = true /\ is_write b = true))) \/
  (is_select a = true /\ is_select b = true).

(** A call with arguments of the C++ types, on the group, and answers that the kernel can give. *)
Definition proper (P : platform) (g : group) (c : call) : Prop :=
  match c with
  | Write i k fs n _ => 0 <= i /\ frames_typed fs /\ (n <= 4)%nat
  | Read i res errno msgs out _ => 0 <= i /\ recv_ok res msgs /\ frames_typed out
  | Statistics i => 0 <= i
  | Select c => select P (sc_ppoll c) g (sc_timeout c) (sc_ignore c) <> UB
  | Filters _ _ _ _ | Name _ | Count => True
  end.

(** The states that threads can bring about which start out with a group and obey [ok] whenever they begin a call: [ok c others] says
    whether [c] may begin while the calls [others] are under way. *)
Inductive overlapped (P : platform) (s0 : state) (ok : call -> (call -> Prop) -> Prop) : conf -> Prop :=
| ov_start : forall rest, overlapped P s0 ok (start s0 rest)
| ov_step : forall s e s', overlapped P s0 ok s ->
    match e with
    | Begin t c => proper P (fst s0) c /\ ok c (fun c' => exists u p, doing s u = Some (c', p))
    | _ => True
    end ->
    step P (fst s0) e s = Some s' -> overlapped P s0 ok s'.

(** No restriction; only calls that do not clash. *)
Definition anyhow (c : call) (others : call -> Prop) : Prop := True.
Definition apart (c : call) (others : call -> Prop) : Prop := forall c', others c' -> ~ clash c c'.

(** Nobody is in a call. *)
Definition quiet (s : conf) : Prop := forall t, doing s t = None.

(** The calls that have returned, and what they answered. *)
Definition calls_of (l : list (nat * call * outcome reply)) : list call := map (fun x => snd (fst x)) l.
Definition answers_of (l : list (nat * call * outcome reply)) : list (outcome reply) := map snd l.

(** They answered what they would have answered one after the other, in the order of [l]. *)
Definition as_if_alone (P : platform) (s0 : state) (l : list (nat * call * outcome reply)) : Prop :=
  exists rs s, serve_all P (calls_of l) s0 = Ret (rs, s) /\ answers_of l = map Ret rs.

(** The memory holds the members of a group. *)
Definition holds_state (m : memory) (s : state) : Prop :=
  m Polls = VPolls (snd s) /\
  forall i f, nth_error (fst s) i = Some f ->
    m (Stat i) = VStat (if_stats f) /\
    (forall k c, nth_error (if_buf f) k = Some c -> m (Slot i k) = VSlot c) /\
    (forall k z, nth_error (if_ctl f) k = Some z -> exists cs, m (Ctl i k) = VCtl z cs).

(** A data race: two threads are about to access the same member, and at least one is about to write it. *)
Definition next_access (p : prog) : option (loc * bool) :=
  match p with Done _ => None | Rd l _ => Some (l, false) | Wr l _ _ => Some (l, true) end.
Definition racing (s : conf) : Prop :=
  exists t u c d p q l a b, t <> u /\ doing s t = Some (c, p) /\ doing s u = Some (d, q) /\
    next_access p = Some (l, a) /\ next_access q = Some (l, b) /\ (a = true \/ b = true).

(** The call does something: its interface exists, there is something to write, the kernel delivers something, there is something to wait
    for and memory for the array. *)
Definition has_work (g : group) (c : call) : Prop :=
  match c with
  | Write i k fs n _ => i < Z.of_nat (length g) /\ (1 <= n)%nat
  | Read i res errno msgs out _ => i < Z.of_nat (length g) /\ 0 < res
  | Statistics i => i < Z.of_nat (length g)
  | Select c => sc_mem c <> None /\ g <> []
  | Filters _ _ _ _ | Name _ | Count => True
  end.
