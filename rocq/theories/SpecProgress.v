(** Vocabulary for how far an execution has come, and how long it takes (Sockets.v). *)

From Verif Require Export SpecSockets.

(** The command line is understood and the schedule has led to [m]; the execution may be
    over ([m_code m = []]) or not. *)
Definition underway (ws : list string) (sch : list choice) (cs : list cmd) (m : machine) (tr : list happening) : Prop :=
  exists cs0 rs, parse_cmds ws = Ret (Some cs0) /\ Forall2 (filled_in cs0) cs0 cs /\ add_all cs [] = Ret rs /\ run sch (begin rs) = Some (m, tr).

(** Steps of the program, as opposed to frames that arrive; and those that are returns of
    select. *)
Definition own_step (c : choice) : bool := match c with Arrive _ _ => false | _ => true end.
Definition is_wake (c : choice) : bool := match c with Wake _ _ _ _ _ => true | _ => false end.
Definition count (f : choice -> bool) (sch : list choice) : Z := Z.of_nat (length (filter f sch)).

(** select returns when the time is up, or with nothing. *)
Definition time_up (c : choice) : Prop := match c with Wake sel late _ _ _ => late || (sel <=? 0) = true | _ => True end.

(** All frames that arrive are as [P] says, and send does not fail. *)
Definition smooth (P : rxmsg -> Prop) (c : choice) : Prop :=
  match c with
  | Arrive _ m => P m
  | Wake _ _ _ _ send => forall k, send k = true
  | Go _ => True
  end.

(** Frames are at least as long as their addresses if they have a tag. *)
Definition behaved : choice -> Prop := smooth tag_fits.
