(** Vocabulary for programs whose captures cannot be executed (Forest.v). *)

From Verif Require Export Forest.

(** The processes that come of a program with [n] captures: the program itself, and the
    children of such a process whose shell could not be executed; they go on with the
    captures behind their own. *)
Inductive process (fk : forkings) (n : nat) : list nat -> Prop :=
| pr_program : process fk n []
| pr_child : forall who i p, process fk n who -> (i < n)%nat -> (forall j, In j who -> (j < i)%nat) -> fk who i = Worked p false -> process fk n (who ++ [i]).

(** The process as it was when capture [j] was to be started. *)
Definition back_then (who : list nat) (j : nat) : list nat := filter (fun i => Nat.ltb i j) who.

(** What came of the commands, as a process saw it. *)
Definition happened (l : list action) : list event := flat_map (fun a => match a with Happens e => [e] | _ => [] end) l.
