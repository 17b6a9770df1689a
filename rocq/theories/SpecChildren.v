(** Vocabulary for captures that end whenever they like (Children.v). *)

From Verif Require Export Children.

(** The captures that were started, with their pids. *)
Definition forked (tr : list happening) : list (nat * Z) :=
  flat_map (fun h => match h with Forked i p => [(i, p)] | _ => [] end) tr.

(** The processes that were sent [sig], in order. *)
Definition sent (sig : Z) (tr : list happening) : list Z :=
  flat_map (fun h => match h with Sent p s => if s =? sig then [p] else [] | _ => [] end) tr.

Definition polls (tr : list happening) : nat :=
  length (filter (fun h => match h with Polled => true | _ => false end) tr).

(** No process ends before the program has taken note of its start. *)
Definition noted (tr : list happening) : Prop :=
  forall t1 i p st t2, tr = t1 ++ Ended i p st :: t2 -> In (Recorded i) t1.

(** No two captures get the same pid. *)
Definition distinct (tr : list happening) : Prop := NoDup (map snd (forked tr)).

(** A schedule that takes the program from its beginning, with the captures [cmds] and at
    most [n] rounds of the receive loop, to its end, and what happens on the way. *)
Definition completes (cmds : list string) (n : nat) (tr : list happening) : Prop :=
  exists sch m, run sch (begin cmds n) = Some (m, tr) /\ m_code m = [].

Definition happens (cmds : list string) (n : nat) (tr : list happening) : Prop :=
  exists sch m, run sch (begin cmds n) = Some (m, tr).
