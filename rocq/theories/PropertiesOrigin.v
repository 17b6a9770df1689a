(** Property C36: exactly when an accepted frame is turned into bytes. *)

From Verif Require Import PTextIp Frame SpecParse SpecOrigin POrigin.

(** A frame that was accepted is turned into bytes, unless an mld header of it lacks
    the addresses its checksum needs; then, and only then, the program stops with
    exit(). *)
Theorem C36_serialises : forall ws n f, argc_frame ws = Ret (Some (n, f)) ->
  Forall (fun h => regular h = true) (fr_stack f) -> modest (fr_stack f) ->
  ((exists k, lacks_addresses (fr_stack f) k) /\ frame_to_buf f = Crash Exit_call) \/
  ((forall k, ~ lacks_addresses (fr_stack f) k) /\ exists f' b, frame_to_buf f = Ret (f', b)).
Proof. exact serialise_exact. Qed.
Print Assumptions C36_serialises.

(** Both cases occur. *)
Example C36_serialises_case : exists n f, argc_frame ["eth"; "ipv6"; "sip"; "::1"; "dip"; "::2"; "mld"; "type"; "143"; "data"; "hex"; "aa"] = Ret (Some (n, f)) /\
  Forall (fun h => regular h = true) (fr_stack f) /\ modest (fr_stack f) /\ exists f' b, frame_to_buf f = Ret (f', b).
Proof.
  do 2 eexists. split; [vm_compute; reflexivity|]. split; [repeat (apply Forall_cons; [vm_compute; reflexivity|]); apply Forall_nil|].
  split; [unfold modest; vm_compute; discriminate|]. do 2 eexists. vm_compute. reflexivity.
Qed.

Example C36_stuck_case : exists n f, argc_frame ["eth"; "ipv6"; "sip"; "::1"; "mld"] = Ret (Some (n, f)) /\
  Forall (fun h => regular h = true) (fr_stack f) /\ modest (fr_stack f) /\ frame_to_buf f = Crash Exit_call.
Proof.
  do 2 eexists. split; [vm_compute; reflexivity|]. split; [repeat (apply Forall_cons; [vm_compute; reflexivity|]); apply Forall_nil|].
  split; [unfold modest; vm_compute; discriminate|]. vm_compute. reflexivity.
Qed.
