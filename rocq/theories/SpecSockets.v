(** Vocabulary for sockets at which frames arrive whenever they like (Sockets.v). *)

From Verif Require Export Sockets SpecExec.

(** What arrived at any interface, and at the one with index [ix]. *)
Definition arrivals (tr : list happening) : list arrival :=
  flat_map (fun h => match h with Arrived ix m => [(ix, m)] | _ => [] end) tr.
Definition arrivals_at (ix : Z) (tr : list happening) : list arrival := filter (fun a => fst a =? ix) (arrivals tr).

(** What was thrown away, and what was taken from the socket of resource [i] to be judged. *)
Definition dropped (i : nat) (tr : list happening) : list arrival :=
  flat_map (fun h => match h with Dropped j a => if Nat.eqb j i then [a] else [] | _ => [] end) tr.
Definition taken (i : nat) (tr : list happening) : list arrival :=
  flat_map (fun h => match h with Taken j a => if Nat.eqb j i then [a] else [] | _ => [] end) tr.

Definition untag (m : rxmsg) : rxmsg := MkRx (rx_data m) None.

(** *** The life of a socket *)

(** There is none; it was made; it is bound to interface [ix]; it is in use; it is closed. *)
Inductive phase := Fresh | Raw (fd : Z) | Attached (fd ix : Z) | InUse (fd ix : Z) | Gone.

(** Of which resource it speaks. *)
Definition number_of (h : happening) : option nat :=
  match h with
  | Arrived _ _ | Turn => None
  | Opened i _ | NotOpened i | Index i _ _ | Bound i _ | Refused i | Untagged i | Dropped i _ | Failed i | Usable i _ | Taken i _ | Closed i _ => Some i
  end.

(** What may happen to it, in which phase; file descriptors are those of this socket. *)
Definition allowed (p : phase) (h : happening) : option phase :=
  match p, h with
  | Fresh, Opened _ fd => Some (Raw fd)
  | Fresh, NotOpened _ => Some Fresh
  | Raw fd, Bound _ ix => Some (Attached fd ix)
  | Raw _, Index _ _ _ => Some p
  | Raw _, Refused _ | Attached _ _, Refused _ => Some p
  | Attached _ _, Dropped _ _ | Attached _ _, Untagged _ | Attached _ _, Failed _ => Some p
  | Attached fd ix, Usable _ fd' => if fd' =? fd then Some (InUse fd ix) else None
  | InUse _ _, Taken _ _ | InUse _ _, Failed _ => Some p
  | Raw fd, Closed _ fd' | Attached fd _, Closed _ fd' | InUse fd _, Closed _ fd' => if fd' =? fd then Some Gone else None
  | _, _ => None
  end.

Definition next (i : nat) (p : phase) (h : happening) : option phase :=
  match number_of h with Some j => if Nat.eqb j i then allowed p h else Some p | None => Some p end.

Fixpoint life (i : nat) (p : phase) (tr : list happening) : option phase :=
  match tr with
  | [] => Some p
  | h :: r => match next i p h with Some q => life i q r | None => None end
  end.

(** PACKET_AUXDATA could not be set for resource [i]. *)
Definition untagged (i : nat) (tr : list happening) : bool :=
  existsb (fun h => match h with Untagged j => Nat.eqb j i | _ => false end) tr.
Definition as_seen (i : nat) (tr : list happening) (m : rxmsg) : rxmsg := if untagged i tr then untag m else m.

(** A socket could not be made or set up. *)
Definition trouble (tr : list happening) : Prop := exists i, In (NotOpened i) tr \/ In (Refused i) tr.

(** As [runs] (SpecExec.v), but with the sockets of Sockets.v: [sch] is what happens, [tr]
    what the sockets meet and [rds] are the turns of the loop. *)
Definition executes (ws : list string) (sch : list choice) (cs : list cmd) (r : Z) (ev : list event) (tr : list happening) (rds : list round) : Prop :=
  exists cs0, parse_cmds ws = Ret (Some cs0) /\ Forall2 (filled_in cs0) cs0 cs /\ exec_with cs0 sch = Ret (Some (r, ev, tr, rds)).

(** A socket of the [i]th interface, [fd], that comes into use: made before [t2], bound to
    the interface with index [ix] before [t3], and free to be used from [t4] on. *)
Definition comes_up (i : nat) (fd ix : Z) (t1 t2 t3 t4 : list happening) : list happening :=
  t1 ++ Opened i fd :: t2 ++ Bound i ix :: t3 ++ Usable i fd :: t4.

(** The socket of the [i]th interface came into use, bound to interface [ix], emptied and
    with tags; [since] is what happened from then on. *)
Definition listens (i : nat) (ix : Z) (tr since : list happening) : Prop :=
  exists fd t1 t2 t3, tr = comes_up i fd ix t1 t2 t3 since /\ ix <> 0 /\ ~ In (Failed i) t3 /\
    Z.of_nat (length (dropped i tr)) < 10000 /\ untagged i tr = false.
