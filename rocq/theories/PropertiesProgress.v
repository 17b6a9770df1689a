(** Property C93: the program comes to its end (vocabulary: SpecProgress.v, SpecSockets.v;
    model: Sockets.v). *)

From Verif Require Import BaseFacts SpecProgress PSockets7 PProgress PProgress2.

(** However many frames arrive, and whenever they do: besides the turns of the loop the
    program makes about 10000 system calls for every interface, and in each turn at most one
    for every interface and two more (select, and sending is counted as one). *)
Theorem C93_steps : forall ws sch cs m tr, underway ws sch cs m tr ->
  let n := Z.of_nat (length (interfaces cs)) in count own_step sch <= 10008 * n + 1 + (n + 2) * count is_wake sch.
Proof. exact underway_steps. Qed.
Print Assumptions C93_steps.

(** Once the time is up, whatever arrives, the number of steps that are left is bounded. *)
Theorem C93_deadline : forall ws sch cs m tr sch2 m2 tr2, underway ws sch cs m tr -> run sch2 m = Some (m2, tr2) -> Forall time_up sch2 ->
  count own_step sch2 <= 10008 * Z.of_nat (length (interfaces cs)) + 2.
Proof. exact underway_deadline. Qed.
Print Assumptions C93_deadline.

(** Full claim: it never waits except in select.  It holds for lines without "padding", if
    the frames are as long as their tags say and sending does not fail (C57).  Any result of a
    system call will do; a new socket's must be new. *)
Theorem C93_goes_on_partial : forall ws sch cs m tr x rest r, underway ws sch cs m tr -> no_padding cs -> Forall behaved sch ->
  m_code m = x :: rest -> x <> Loop -> 0 <= r -> ~ In r (map k_fd (m_socks m)) -> exists m1 ev, step (Go r) m = Some (m1, ev).
Proof. exact underway_goes. Qed.
Print Assumptions C93_goes_on_partial.

(** In select it does not wait when there is nothing to wait for or the time is up. *)
Theorem C93_select : forall m rest, m_code m = Loop :: rest ->
  (exists m1 ev, forall r, step (Go r) m = Some (m1, ev)) \/
  forall sel late ready wr send, late || (sel <=? 0) = true -> exists m1 ev, step (Wake sel late ready wr send) m = Some (m1, ev).
Proof. exact underway_loop. Qed.
Print Assumptions C93_select.

(** Full claim: whatever has happened, from any point on the execution can be finished, without
    anything arriving, when the time is up.  It holds under the same conditions. *)
Theorem C93_ends_partial : forall ws sch cs m tr, underway ws sch cs m tr -> no_padding cs -> Forall behaved sch ->
  exists sch2 r ev tr2 rds, executes ws (sch ++ sch2) cs r ev (tr ++ tr2) rds /\ forallb own_step sch2 = true /\ Forall time_up sch2 /\ Forall behaved sch2.
Proof. exact underway_ends. Qed.
Print Assumptions C93_ends_partial.

(** Nothing is left to do: it is an execution in the sense of C91. *)
Theorem C93_over : forall ws sch cs m tr, underway ws sch cs m tr -> m_code m = [] -> exists r ev, executes ws sch cs r ev tr (m_rounds m).
Proof. exact underway_over. Qed.
Print Assumptions C93_over.

(** ** Examples *)
Definition some (_ : nat) : bool := true.
Definition none (_ : nat) : bool := false.
Definition a_frame : rxmsg := MkRx (repeat 7 60) None.

Definition way (ws : list string) (sch : list choice) : option (list cmd * machine * list happening) :=
  match parse_cmds ws with
  | Ret (Some cs) =>
      if (length (undefined_refs cs) =? 0)%nat then
        match add_all (map (PPair.paired cs) cs) [] with
        | Ret rs => match run sch (begin rs) with Some (m, tr) => Some (map (PPair.paired cs) cs, m, tr) | None => None end
        | Crash _ => None
        end
      else None
  | _ => None
  end.

Lemma way_ok : forall ws sch cs m tr, way ws sch = Some (cs, m, tr) -> underway ws sch cs m tr.
Proof.
  intros ws sch cs m tr H. unfold way in H. destruct (parse_cmds ws) as [[cs0|]|] eqn:EP; try discriminate. destruct (_ =? _)%nat eqn:EU; [|discriminate]. destruct (add_all (map (PPair.paired cs0) cs0) []) as [rs|] eqn:EA; [|discriminate]. destruct (run sch (begin rs)) as [[m0 tr0]|] eqn:ER; [|discriminate].
  apply some_inj in H. do 2 (apply pair_inj in H; destruct H as [H ?]). subst. exists cs0, rs. split; [auto|]. split; [|auto]. apply Nat.eqb_eq in EU. apply PPair.Forall2_map_filled. intros c Hc. apply PPair.undefined_nil; auto. destruct (undefined_refs cs0); [auto|discriminate].
Qed.

(** Between two reads of one turn: two interfaces, both readable; one socket is being
    emptied when a frame arrives. *)
Definition words2 : list string := ["rx"; "eth0"; "eth"; "rx"; "eth1"; "eth"; "tx"; "eth1"; "rep"; "3"; "eth"]%string.
Definition schedule2 : list choice :=
  [Go 3; Go 7; Go 7; Go 0; Go 0; Go 0; Arrive 7 a_frame; Go 0; Go 0; Go 4; Go 9; Go 9; Go 0; Go 0; Go 0; Go 0; Arrive 7 a_frame; Arrive 9 a_frame; Wake 2 false some some some; Go 0].

Example C93_case : exists cs m tr rest, underway words2 schedule2 cs m tr /\ no_padding cs /\ Forall behaved schedule2 /\ m_code m = Recv 1 :: rest /\
  ~ In 5 (map k_fd (m_socks m)) /\ length (interfaces cs) = 2%nat /\ count own_step schedule2 = 17 /\ count is_wake schedule2 = 1.
Proof.
  destruct (way words2 schedule2) as [[[cs m] tr]|] eqn:E; [|vm_compute in E; discriminate E]. exists cs, m, tr. pose proof (way_ok _ _ _ _ _ E) as U. vm_compute in E. apply some_inj in E. do 2 (apply pair_inj in E; destruct E as [E ?]). subst.
  eexists. split; [exact U|]. clear U. split; [|split; [|split; [reflexivity|]]].
  - intros c f Hc Hf. repeat (destruct Hc as [<-|Hc]; [cbn in Hf; apply some_inj in Hf; subst f; reflexivity|]). destruct Hc.
  - unfold schedule2. repeat (constructor; [cbn; try exact I; try (intros _; cbn; lia); try (intros X; destruct X; reflexivity); auto|]). constructor.
  - split; [cbn; lia|]. split; [reflexivity|]. split; reflexivity.
Qed.

(** With "padding" judging a frame reads outside of a buffer (C57): there is no step. *)
Theorem C93_goes_on_refuted : exists ws sch cs m tr rest, underway ws sch cs m tr /\ Forall behaved sch /\ m_code m = Serve 1 none some :: rest /\ forall ch, own_step ch = true -> step ch m = None.
Proof.
  set (sch := [Go 3; Go 7; Go 7; Go 0; Go 0; Go 0; Go 0; Arrive 7 (MkRx (zeros 64) None); Wake 1 false some none some; Go 0]).
  destruct (way ["rx"; "eth0"; "eth"; "padding"; "4"]%string sch) as [[[cs m] tr]|] eqn:E; [|vm_compute in E; discriminate E]. exists ["rx"; "eth0"; "eth"; "padding"; "4"]%string, sch, cs, m, tr. pose proof (way_ok _ _ _ _ _ E) as U. vm_compute in E. apply some_inj in E. do 2 (apply pair_inj in E; destruct E as [E ?]). subst.
  eexists. split; [exact U|]. clear U. split; [|split; [reflexivity|]].
  - unfold sch. repeat (constructor; [cbn; try exact I; try (intros X; destruct X; reflexivity); auto|]). constructor.
  - intros [ix x|r|sel late ready wr send] X; [discriminate X|vm_compute; reflexivity|reflexivity].
Qed.
Print Assumptions C93_goes_on_refuted.
