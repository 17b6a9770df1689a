(** Model of the program when a shell cannot be executed: src/ef-capture.c:174-215.  The
    child returns from [capture_start] like its parent and goes on: with the next
    captures, with the test (src/ef-args.c:300-319), and with stopping the captures. *)

From Verif Require Export Main.

(** The result of a fork, and whether the child's execl works. *)
Inductive forking := Failed | Worked (pid : positive) (shell : bool).

(** A process is known by the captures at which it and its parents have come into being;
    [[]] is the program that was started.  What becomes of the fork by which a process
    means to start a capture. *)
Definition forkings : Type := list nat -> nat -> forking.

(** src/ef-capture.c:200-208, with 181-198 and 174-179: the processes at the end of the
    loop, their lists of captures, and the captures each of them has started.  [done]: the
    captures before number [i]. *)
Fixpoint launch (fk : forkings) (who : list nat) (i : nat) (done todo : list capture) (acts : list action) : list (list nat * list capture * list action) :=
  match todo with
  | [] => [(who, done, acts)]
  | c :: r =>
      match fk who i with
      | Failed => launch fk who (S i) (done ++ [capture_start (-1) c]) r acts
      | Worked p true =>
          launch fk who (S i) (done ++ [capture_start (Zpos p) c]) r (acts ++ [Start (cap_cmd c) (Zpos p)])
      | Worked p false =>
          launch fk who (S i) (done ++ [capture_start (Zpos p) c]) r acts
          ++ launch fk (who ++ [i]) (S i) (done ++ [c]) r []
      end
  end.

(** src/ef-args.c:302-324: what a process does next, with commands [cs]; as in [session]. *)
Definition carry_on (m : Z) (cs : list cmd) (s : surroundings) (cps : list capture) (acts : list action) : out (Z * list action) :=
  '(r, ev) <- exec_cmds cs (env_of m s);;
  let tv_end := end_of m (s_start s) in
  let sl := if (0 <? zlen cps) && timer_lt (s_done s) tv_end
            then [Sleep (timersub tv_end (s_done s))] else [] in
  let '(_, sigs) := capture_all_stop (s_before s) (s_int s) (s_term s) cps in
  Ret (exit_status r, acts ++ map Happens ev ++ sl ++ map (fun k => Kill (fst k) (snd k)) sigs).

(** src/ef-args.c:330-361: the program, with all the processes that come of it and what
    each of them does, in surroundings of its own.  [s_pids] is not used. *)
Definition crowd (args : list string) (fk : forkings) (sur : list nat -> surroundings) : out (list (list nat * out (Z * list action))) :=
  match getopt args with
  | ORun m caps ws =>
      o <- parse_cmds ws;;
      match o with
      | None => Ret [([], session args (sur []))]
      | Some cs =>
          Ret (map (fun p => (fst (fst p), carry_on m cs (sur (fst (fst p))) (snd (fst p)) (snd p)))
                   (launch fk [] 0 [] (map new_capture caps) (map (fun c => Remove (snd (capture_add c))) caps)))
      end
  | _ => Ret [([], session args (sur []))]
  end.
