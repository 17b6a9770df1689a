(** Vocabulary for the program with its captures and its sockets at once (Together.v). *)

From Verif Require Export SpecWire SpecMain.
From Verif Require SpecChildren.
From Verif Require Export Together.

(** What was seen of the captures, and of the sockets. *)
Definition child_seen (tr : list sight) : list Children.happening := flat_map (fun x => match x with OfChild h => [h] | _ => [] end) tr.
Definition net_seen (tr : list sight) : list Sockets.happening := flat_map (fun x => match x with OfNet h => [h] | _ => [] end) tr.

(** Whose schedule it is; an interrupted select is in both. *)
Definition child_of (a : act) : list Children.choice := match a with Child c => [c] | Net _ => [] | Break => [Children.Deliver false] end.
Definition net_of (a : act) : list Sockets.choice := match a with Child _ => [] | Net c => [c] | Break => [eintr] end.

(** The program has been started with options and words [ps]; the schedule [sch] leads it
    somewhere, not necessarily to its end. *)
Definition starts_with (ps : list SpecMain.part) (sch : list act) (cs : list cmd) (s : state) (tr : list sight) : Prop :=
  Forall part_ok ps /\ exists cs0 rs, parse_cmds (flat_map operand_of ps) = Ret (Some cs0) /\ Forall2 (filled_in cs0) cs0 cs /\ add_all cs [] = Ret rs /\
    run sch (begin (map (fun c => fst (capture_add c)) (flat_map capture_of ps)) rs) = Some (s, tr).

(** Something the program does with its sockets; frames arrive by themselves. *)
Definition of_test (x : sight) : bool := match x with OfNet (Sockets.Arrived _ _) => false | OfNet _ | Broken => true | OfChild _ => false end.

(** Ordinary frames arrive, and sending works. *)
Definition fair (a : act) : Prop := match a with Net c => smooth sized c | _ => True end.

(** The frames read and the frames expected are fewer than 256 (the exit status cannot
    count further, C48). *)
Definition few_read (T : list SpecTest.step) (tr : list Sockets.happening) : Prop :=
  (length (flat_map (fun i => SpecSockets.taken i tr) (seq 0 (length (used T)))) + length (flat_map (fun ifn => to_expect ifn T) (used T)) < 256)%nat.

(** Steps of the program and its captures, as opposed to frames that arrive; and those that
    are returns of select. *)
Definition counts (a : act) : bool := match a with Net c => own_step c | _ => true end.
Definition wakes (a : act) : bool := match a with Net c => is_wake c | Break => true | Child _ => false end.
Definition number (f : act -> bool) (sch : list act) : Z := Z.of_nat (length (filter f sch)).

(** The same, but frames need only be as long as their tags say. *)
Definition tame (a : act) : Prop := match a with Net c => behaved c | _ => True end.

(** The program goes on: nothing arrives, no capture ends, and select returns when the time
    is up or with nothing. *)
Definition on_its_own (a : act) : Prop := match a with Child (Children.Go _) => True | Net c => own_step c = true /\ time_up c | _ => False end.
