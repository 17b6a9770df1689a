(** Properties C37-C50, C57, C58: command lines and their execution.
    Vocabulary: SpecExec.v.  "_refuted" theorems give runs of the program that
    contradict the property as stated in properties.jsonl; the "_partial" theorem
    beside it says what does hold. *)

From Coq Require Import Permutation.
From Verif Require Import PTextIp PTextNum Frame SpecParse Exec SpecExec PCmd PPair PExec PRecv PVerdict PSend PQuiet PTotal PReplay PSyntax PStatus SpecFill PMask PRoom PIgnore.

(** For the examples: environments in which all sockets can be opened. *)
Definition world (rds : list round) : env := MkEnv (fun _ => true) rds.
(** One message on socket [i], nothing writable. *)
Definition gets (i : nat) (m : rxmsg) : round := MkRound 1 false (fun j => if Nat.eqb i j then Some m else None) (fun _ => false) (fun _ => true).
(** All sockets are writable and all sends succeed / fail. *)
Definition puts : round := MkRound 1 false (fun _ => None) (fun _ => true) (fun _ => true).
Definition fails : round := MkRound 1 false (fun _ => None) (fun _ => true) (fun _ => false).
Definition plain (b : list Z) : rxmsg := MkRx b None.
(** The frames "eth dmac ::n" and "eth" *)
Definition eth_to (n : Z) : list Z := [0; 0; 0; 0; 0; n; 0; 0; 0; 0; 0; 1; 170; 170] ++ zeros 46.
Definition eth_all : list Z := [255; 255; 255; 255; 255; 255; 0; 0; 0; 0; 0; 1; 170; 170] ++ zeros 46.

Ltac run := apply run_of_ok; vm_compute; reflexivity.
(** No command transmits on the interface. *)
Ltac silent := intros b c Hb Hc; exfalso; vm_compute in Hc; exact Hc.

(** ** Command lines *)

(** C37 *)
Theorem C37_all_or_nothing : forall ws e r ev, argc_cmds ws e = Ret (r, ev) ->
  (r = -1 /\ ev = []) \/
  exists segs cs, concat segs = ws /\ Forall2 command_words segs cs /\ (length cs <= 100)%nat /\ exec_cmds cs e = Ret (r, ev).
Proof. exact all_or_nothing. Qed.
Print Assumptions C37_all_or_nothing.

Example C37_case :
  argc_cmds ["tx"; "eth0"; "eth"; "bogus"] (world [puts]) = Ret (-1, []) /\
  exists ev, argc_cmds ["hex"; "eth"; "tx"; "eth0"; "eth"] (world [puts]) = Ret (0, ev) /\ length ev = 3%nat.
Proof. split; [vm_compute; reflexivity|]. eexists. split; vm_compute; reflexivity. Qed.

(** C58 *)
Theorem C58_command_syntax : forall seg c, command_words seg c <-> command_text seg c.
Proof. exact command_syntax. Qed.
Print Assumptions C58_command_syntax.

Theorem C58_repeat_count : forall k n, denotes 10 k n -> n < 2 ^ 32 -> atoi_u32 k = n.
Proof. exact repeat_number. Qed.
Print Assumptions C58_repeat_count.

Example C58_case : exists c, command_words ["tx"; "eth0"; "rep"; "12"; "eth"; "dmac"; "::1"] c /\ c_repeat c = 12 /\ c_buf c = Some (eth_to 1) /\
  c_arg0 c = Some "eth0"%string.
Proof. eexists. split; [vm_compute; reflexivity|]. split; [reflexivity|]. split; vm_compute; reflexivity. Qed.

(** ** What an expectation accepts *)

(** C66.  Without "ign" exactly the frame's bytes; with it every frame of that length
    that agrees in the fields that are not ignored and behind the last header.  ([f0]
    is the frame as parsed, [f] and [b] what it is serialised to.)  Full claim: also
    for SV headers without their last part. *)
Theorem C66_exact : forall w a F c f0 f b rx, In w ["rx"; "name"]%string -> command_words (w :: a :: F) c -> c_frame c = Some f -> serialised F f0 f b ->
  fr_padding f0 = 0 -> Forall is_byte rx -> Forall (fun x => ~ ignore_word x) F -> (accepts c rx <-> rx = b).
Proof. exact expectation_exact. Qed.
Print Assumptions C66_exact.

Theorem C66_ignoring_partial : forall w a F c f0 f b rx, In w ["rx"; "name"]%string -> command_words (w :: a :: F) c -> c_frame c = Some f -> serialised F f0 f b ->
  fr_padding f0 = 0 -> forallb sv_whole (fr_stack f0) = true -> Forall is_byte rx -> ignores f0 ->
  (accepts c rx <-> length rx = length b /\ forall i, 0 <= i < 8 * Z.of_nat (length b) -> counts f i -> bit_at rx i = bit_at b i).
Proof. exact expectation_ignoring. Qed.
Print Assumptions C66_ignoring_partial.

(** C18 for commands: changing the bits of an ignored field does not matter, if no
    compared field shares bits with it. *)
Theorem C18_command_partial : forall w a F c f0 f b k h h' j fl fl' rx, In w ["rx"; "name"]%string -> command_words (w :: a :: F) c -> c_frame c = Some f -> serialised F f0 f b ->
  fr_padding f0 = 0 -> forallb sv_whole (fr_stack f0) = true ->
  header_pair f0 f k h h' -> nth_error (h_fields h) j = Some fl -> f_skip fl = true -> nth_error (h_fields h') j = Some fl' ->
  (forall g, In g (h_fields h') -> f_skip g = false -> ~ overlap fl' g) ->
  Forall is_byte rx -> length rx = length b ->
  (forall i, 0 <= i < 8 * Z.of_nat (length b) ->
     ~ (8 * start_of (fr_stack f) k + f_off fl' <= i < 8 * start_of (fr_stack f) k + f_off fl' + f_width fl') -> bit_at rx i = bit_at b i) ->
  accepts c rx.
Proof. exact ignored_command. Qed.
Print Assumptions C18_command_partial.

Example C18_command_case : exists c f0 f b h h' fl fl', command_words ("rx" :: "eth0" :: some_words)%string c /\ c_frame c = Some f /\ serialised some_words f0 f b /\
  fr_padding f0 = 0 /\ forallb sv_whole (fr_stack f0) = true /\ header_pair f0 f 1 h h' /\ nth_error (h_fields h) 8 = Some fl /\ f_name fl = "ttl"%string /\ f_skip fl = true /\ nth_error (h_fields h') 8 = Some fl' /\
  (forall g, In g (h_fields h') -> f_skip g = false -> ~ overlap fl' g).
Proof.
  exists some_cmd, some_parsed, (fst some_emitted), (snd some_emitted), (nth 1 (fr_stack some_parsed) HDR_ETH), (nth 1 (fr_stack (fst some_emitted)) HDR_ETH).
  do 2 eexists. split; [vm_compute; reflexivity|]. split; [reflexivity|].
  split. { split; [exists 11%nat; vm_compute; reflexivity|]. split; [|vm_compute; reflexivity]. apply Forall_forall. apply forallb_forall. vm_compute. reflexivity. }
  split; [reflexivity|]. split; [vm_compute; reflexivity|]. split; [split; reflexivity|]. split; [reflexivity|]. split; [reflexivity|]. split; [reflexivity|]. split; [reflexivity|].
  intros g Hg Hs [H1 H2]. cbn [nth some_emitted fst fr_stack h_fields In] in Hg. repeat (destruct Hg as [<-|Hg]; [vm_compute in Hs, H1, H2; congruence|]). destruct Hg.
Qed.

(** C67: the mask is built exactly if all the fields that are compared end inside the
    frame, be it in bytes of the filling or of another header: also those that an igmp,
    mld or sv message does not have.  Otherwise an assertion stops the program. *)
Theorem C67_exact : forall ws f f' b, serialised ws f f' b ->
  ((exists m, frame_mask_to_buf f' = Ret m) <->
   forall k h fl, nth_error (fr_stack f') k = Some h -> In fl (h_fields h) -> f_skip fl = false -> 8 * start_of (fr_stack f') k + f_off fl + f_width fl <= 8 * Z.of_nat (length b)) /\
  ((exists m, frame_mask_to_buf f' = Ret m) \/ frame_mask_to_buf f' = Crash Assert_fail).
Proof. exact mask_exact. Qed.
Print Assumptions C67_exact.

(** So it is built if 14 bytes follow the start of each igmp header, 30 that of each mld
    header, 22 that of each sv header ... *)
Theorem C67_room_partial : forall ws f f' b, serialised ws f f' b ->
  (forall k h, nth_error (fr_stack f) k = Some h -> In (h_name h) ["igmp"; "mld"; "sv"]%string -> start_of (fr_stack f') k + needs (h_name h) <= Z.of_nat (length b)) -> exists m, frame_mask_to_buf f' = Ret m.
Proof. exact mask_room. Qed.
Print Assumptions C67_room_partial.

Example C67_case : exists f f' b, serialised ["eth"; "ipv4"; "sip"; "ign"; "igmp"; "ga"; "224.0.0.7"]%string f f' b /\ ignores f /\
  (forall k h, nth_error (fr_stack f) k = Some h -> In (h_name h) ["igmp"; "mld"; "sv"]%string -> start_of (fr_stack f') k + needs (h_name h) <= Z.of_nat (length b)).
Proof.
  set (ws := ["eth"; "ipv4"; "sip"; "ign"; "igmp"; "ga"; "224.0.0.7"]%string). exists (parsed_of ws), (fst (emitted_of ws)), (snd (emitted_of ws)). split; [|split].
  - split; [exists 7%nat; vm_compute; reflexivity|]. split; [|vm_compute; reflexivity]. apply Forall_forall. apply forallb_forall. vm_compute. reflexivity.
  - exists (nth 1 (fr_stack (parsed_of ws)) HDR_ETH), (nth 11 (h_fields (nth 1 (fr_stack (parsed_of ws)) HDR_ETH)) (MkField "" false 0 0 None None FP_default)). split; [right; left; reflexivity|]. split; [do 11 right; left; reflexivity|vm_compute; reflexivity].
  - intros k h Hk Hn. assert (Hnm := f_equal (option_map h_name) Hk). clear Hk. cbn [option_map] in Hnm. generalize dependent (h_name h). intros n Hn Hnm. destruct k as [|[|[|k]]]; [| | |destruct k; discriminate Hnm]; vm_compute in Hnm; apply some_inj in Hnm; rewrite <- Hnm; rewrite <- Hnm in Hn; clear Hnm.
    + destruct Hn as [H|[H|[H|[]]]]; discriminate H.
    + destruct Hn as [H|[H|[H|[]]]]; discriminate H.
    + vm_compute. discriminate.
Qed.

(** ... and for every frame without such headers, ... *)
Theorem C67_mask_partial : forall ws f f' b, serialised ws f f' b -> (forall h, In h (fr_stack f) -> ~ In (h_name h) ["igmp"; "mld"; "sv"]%string) ->
  exists m, frame_mask_to_buf f' = Ret m.
Proof. exact mask_built. Qed.
Print Assumptions C67_mask_partial.

Theorem C17_accepted_frames : forall ws f f' b m, serialised ws f f' b -> forallb sv_whole (fr_stack f) = true -> frame_mask_to_buf f' = Ret m ->
  length m = length b /\ forall i, 0 <= i < 8 * Z.of_nat (length m) -> (bit_at m i = true <-> counts f' i).
Proof. exact accepted_mask. Qed.
Print Assumptions C17_accepted_frames.

Example C17_accepted_case : exists f f' b m, serialised some_words f f' b /\ forallb sv_whole (fr_stack f) = true /\ frame_mask_to_buf f' = Ret m /\ length m = 60%nat /\ nth 0 m 1 = 0 /\ nth 6 m 0 = 255 /\ nth 22 m 1 = 0.
Proof.
  do 3 eexists. exists (match frame_mask_to_buf (fst some_emitted) with Ret m => m | Crash _ => [] end).
  split. { split; [exists 11%nat; vm_compute; reflexivity|]. split; [|vm_compute; reflexivity]. apply Forall_forall. apply forallb_forall. vm_compute. reflexivity. }
  vm_compute. auto 10.
Qed.

(** ... but not for an MLD message: the fields that the message does not have are left
    behind the end of the frame, and an assertion stops the program. *)
Theorem C67_refuted : exists ws f f' b, serialised ws f f' b /\ ignores f /\ frame_mask_to_buf f' = Crash Assert_fail /\
  parse_cmds ("rx" :: "eth0" :: ws)%string = Crash Assert_fail.
Proof. exact mld_mask_aborts. Qed.
Print Assumptions C67_refuted.

(** An SV header without its last part: two of its absent fields lie in the bytes of
    the header behind it, which are compared although they are ignored. *)
Theorem C66_refuted : exists ws c f b k h fl rx, command_words ("rx" :: "eth0" :: ws)%string c /\ c_frame c = Some f /\ c_buf c = Some b /\ fr_padding f = 0 /\
  nth_error (fr_stack f) k = Some h /\ In fl (h_fields h) /\ f_skip fl = true /\ within h fl /\ (forall g, In g (h_fields h) -> f_skip g = false -> ~ overlap fl g) /\
  Forall is_byte rx /\ length rx = length b /\
  (forall i, 0 <= i < 8 * Z.of_nat (length b) ->
     ~ (8 * start_of (fr_stack f) k + f_off fl <= i < 8 * start_of (fr_stack f) k + f_off fl + f_width fl) -> bit_at rx i = bit_at b i) /\
  ~ accepts c rx.
Proof. exact short_sv_compared. Qed.
Print Assumptions C66_refuted.

Example C66_case : exists c f0 f b, command_words ["rx"; "eth0"; "eth"; "dmac"; "ign"; "smac"; "::2"; "ipv4"; "sip"; "1.2.3.4"; "ttl"; "ign"; "udp"] c /\
  c_frame c = Some f /\ serialised ["eth"; "dmac"; "ign"; "smac"; "::2"; "ipv4"; "sip"; "1.2.3.4"; "ttl"; "ign"; "udp"] f0 f b /\
  fr_padding f0 = 0 /\ forallb sv_whole (fr_stack f0) = true /\ ignores f0 /\ nth 0 b 0 = 255 /\ counts f 48 /\
  (forall h, In h (fr_stack f0) -> ~ In (h_name h) ["igmp"; "mld"; "sv"]%string) /\ accepts c ([1; 2; 3; 4; 5; 6] ++ skipn 6 b).
Proof. exact expectation_case. Qed.

(** C38.  Full claim: never undefined behaviour.  A "tx" command cut short dereferences
    a null pointer; [C36] covers the frames. *)
Theorem C38_command_parsing_partial : forall ws c, parse_cmds ws = Crash c ->
  c = Out_of_model \/ c = Assert_fail \/ c = Exit_call \/
  (c = OOB_read /\ overlong_word ws) \/ (c = Uninit_ptr /\ missing_parameter ws) \/ (c = Null_deref /\ cut_short ws).
Proof. exact (fun ws c H => match parse_cmds_crash ws c H with
  | or_introl (or_introl X) => or_introl X
  | or_introl (or_intror (or_introl X)) => or_intror (or_introl X)
  | or_introl (or_intror (or_intror (or_introl X))) => or_intror (or_intror (or_introl X))
  | or_introl (or_intror (or_intror (or_intror (or_introl X)))) => or_intror (or_intror (or_intror (or_introl X)))
  | or_introl (or_intror (or_intror (or_intror (or_intror X)))) => or_intror (or_intror (or_intror (or_intror (or_introl X))))
  | or_intror X => or_intror (or_intror (or_intror (or_intror (or_intror X))))
  end). Qed.
Print Assumptions C38_command_parsing_partial.

Theorem C38_refuted : forall ifn rep, In rep ["rep"; "repeat"]%string ->
  parse_cmds ["tx"; ifn]%string = Crash Null_deref /\ parse_cmds ["tx"; ifn; rep]%string = Crash Null_deref.
Proof. intros ifn rep [<-|[<-|[]]]; split; reflexivity. Qed.
Print Assumptions C38_refuted.

Example C38_case : parse_cmds ["rx"; "eth0"; "eth"; "ipv6"; "sip"; "0x112233445566778899aabbccddeeff0011"] = Crash OOB_read /\
  parse_cmds ["hex"; "coap-parms"; "par"; "x"] = Crash Uninit_ptr /\ parse_cmds ["hex"; "eth"; "tx"; "eth0"] = Crash Null_deref /\ parse_cmds ["rx"; "eth0"; "eth"; "smac"; "ign"; "ipv6"; "mld"] = Crash Exit_call.
Proof. repeat split; vm_compute; reflexivity. Qed.

(** ** Named frames and sockets *)

(** C39.  The commands [cs'] that are executed are the given ones with the frames of
    the first definitions filled in. *)
Theorem C39_named_frames : forall ws cs e, parse_cmds ws = Ret (Some cs) ->
  (undefined_refs cs <> [] ->
    exists inv, Forall is_inventory inv /\ argc_cmds ws e = Ret (Z.of_nat (length (undefined_refs cs)), inv ++ map EvNoName (undefined_refs cs))) /\
  (undefined_refs cs = [] ->
    exists cs', Forall2 (filled_in cs) cs cs' /\ argc_cmds ws e = exec_cmds cs' e).
Proof. exact named_frames. Qed.
Print Assumptions C39_named_frames.

Example C39_case :
  (exists cs ev, runs ["tx"; "eth0"; "name"; "a"; "name"; "a"; "eth"; "dmac"; "::1"; "name"; "a"; "eth"; "dmac"; "::2"] (world [puts]) cs 0 ev /\
    sends "eth0" ev = [(eth_to 1, true)]) /\
  exists ev, argc_cmds ["tx"; "eth0"; "name"; "x"; "tx"; "eth0"; "eth"; "rx"; "eth1"; "name"; "y"] (world [puts]) = Ret (2, ev) /\ sends "eth0" ev = [].
Proof. split; [do 2 eexists; split; [run|]|eexists; split]; vm_compute; reflexivity. Qed.

(** C40.  [rs] are the sockets. *)
Theorem C40_grouping : forall ws cs0 cs, parse_cmds ws = Ret (Some cs0) -> Forall2 (filled_in cs0) cs0 cs ->
  exists rs, add_all cs [] = Ret rs /\ NoDup (interfaces cs) /\ map r_name rs = interfaces cs /\
  (forall r, In r rs -> r_cmds r = commands_on (r_name r) cs) /\ Permutation (flat_map r_cmds rs) (filter traffic cs).
Proof. exact grouped_sockets. Qed.
Print Assumptions C40_grouping.

Example C40_case : exists cs ev, runs ["rx"; "eth1"; "eth"; "tx"; "eth0"; "eth"; "rx"; "eth1"; "eth"; "dmac"; "::1"] (world []) cs 2 ev /\
  interfaces cs = ["eth1"; "eth0"]%string /\ length (commands_on "eth1" cs) = 2%nat.
Proof. do 2 eexists. split; [run|]. split; vm_compute; reflexivity. Qed.

(** ** Received frames *)

(** C41.  Without transmit commands [no_echo] holds (second theorem). *)
Theorem C41_frames_accounted : forall ws e cs r ev, runs ws e cs r ev ->
  (forall ifn, no_echo ifn cs ev -> exists a, accounts (expectations ifn cs) (receptions ifn ev) a /\
     reported_missing ifn ev = map frame_of (unsatisfied (expectations ifn cs) a)) /\
  r = Z.of_nat (sum (map (fun ifn => (length (unexpected ifn ev) + length (reported_missing ifn ev))%nat) (interfaces cs))).
Proof. exact (fun ws e cs r ev H => conj (fun ifn => frames_accounted ws e cs r ev ifn H) (total_errors ws e cs r ev H)). Qed.
Print Assumptions C41_frames_accounted.

Theorem C41_rx_only : forall ifn cs ev, transmissions ifn cs = [] -> no_echo ifn cs ev.
Proof. exact no_transmissions. Qed.
Print Assumptions C41_rx_only.

Example C41_case : exists cs ev,
  runs ["rx"; "eth0"; "eth"; "dmac"; "::1"; "rx"; "eth0"; "eth"; "dmac"; "::2"] (world [gets 0 (plain (eth_to 2)); gets 0 (plain (eth_to 3))]) cs 2 ev /\
  no_echo "eth0" cs ev /\ receptions "eth0" ev = [(true, eth_to 2); (false, eth_to 3)] /\ reported_missing "eth0" ev = [eth_to 1].
Proof. do 2 eexists. split; [run|]. split; [silent|]. split; vm_compute; reflexivity. Qed.

(** C42 *)
Theorem C42_exact_verdict : forall ws e cs r ev, runs ws e cs r ev -> (forall ifn, no_echo ifn cs ev /\ Forall exact (expectations ifn cs)) ->
  (r = 0 <-> forall ifn, Permutation (received ifn ev) (map frame_of (expectations ifn cs))).
Proof. exact exact_verdict. Qed.
Print Assumptions C42_exact_verdict.

Theorem C42_exact_counts : forall ws e cs r ev ifn, runs ws e cs r ev -> no_echo ifn cs ev -> Forall exact (expectations ifn cs) -> forall b,
  let expected := map frame_of (expectations ifn cs) in
  occurrences b (unexpected ifn ev) = (occurrences b (received ifn ev) - occurrences b expected)%nat /\
  occurrences b (reported_missing ifn ev) = (occurrences b expected - occurrences b (received ifn ev))%nat.
Proof. exact exact_counts. Qed.
Print Assumptions C42_exact_counts.

Example C42_case : exists cs ev,
  runs ["rx"; "eth0"; "eth"; "dmac"; "::1"; "rx"; "eth0"; "eth"; "dmac"; "::2"] (world [gets 0 (plain (eth_to 2)); gets 0 (plain (eth_to 1))]) cs 0 ev /\
  (forall ifn, no_echo ifn cs ev /\ Forall exact (expectations ifn cs)).
Proof.
  do 2 eexists. split; [run|]. intros ifn. split; [apply no_transmissions; unfold transmissions, commands_on; cbn [filter traffic is_rx is_tx c_type cmd_type_eqb orb andb on_if c_arg0]; destruct (String.eqb "eth0" ifn); reflexivity|].
  unfold expectations, commands_on; cbn [filter traffic is_rx is_tx c_type cmd_type_eqb orb andb on_if c_arg0]. destruct (String.eqb "eth0" ifn); cbn [filter]; repeat constructor; eexists; split; reflexivity.
Qed.

(** C43.  Full claim: for all expectations.  It fails for overlapping ones, since a frame is
    given to the first expectation it matches; the program passes whatever the order if
    no two expectations overlap partially. *)
Theorem C43_order_independent_partial : forall ws e cs r ev ifn W, runs ws e cs r ev -> no_echo ifn cs ev -> separated (expectations ifn cs) ->
  Permutation (expectations ifn cs) W -> Forall2 accepts W (received ifn ev) -> unexpected ifn ev = [] /\ reported_missing ifn ev = [].
Proof. exact order_independent. Qed.
Print Assumptions C43_order_independent_partial.

(** Two expectations, one of them with an ignored field; the frames arrive in the other
    order. *)
Example C43_case : exists cs ev c d, runs ["rx"; "eth0"; "eth"; "dmac"; "::1"; "smac"; "ign"; "rx"; "eth0"; "eth"; "dmac"; "::2"] (world [gets 0 (plain (eth_to 2)); gets 0 (plain (eth_to 1))]) cs 0 ev /\
  expectations "eth0" cs = [c; d] /\ c_mask c <> None /\ no_echo "eth0" cs ev /\ separated [c; d] /\ Forall2 accepts [d; c] (received "eth0" ev).
Proof.
  do 4 eexists. split; [run|]. split; [vm_compute; reflexivity|]. split; [discriminate|]. split; [silent|]. split.
  - intros x y b b' Hx Hy Ax Ay Ax'.
    destruct Hx as [<-|[<-|[]]], Hy as [<-|[<-|[]]]; try exact Ax'; exfalso; destruct Ax as [_ [x1 [E1 [L1 M1]]]], Ay as [_ [x2 [E2 [L2 M2]]]]; cbn [c_buf c_mask] in *; apply some_inj in E1; apply some_inj in E2; subst x1 x2;
      [specialize (M1 5%nat ltac:(cbn; lia)); rewrite M2 in M1|specialize (M2 5%nat ltac:(cbn; lia)); rewrite M1 in M2]; vm_compute in *; congruence.
  - vm_compute received. constructor; [|constructor; [|constructor]].
    + split; [eexists; split; reflexivity|]. eexists. split; [reflexivity|]. split; reflexivity.
    + split; [eexists; split; reflexivity|]. eexists. split; [reflexivity|]. split; [reflexivity|]. cbv beta iota delta [c_mask]. intros i Hi.
      do 60 (destruct i as [|i]; [vm_compute; reflexivity|]). exfalso. cbn [length] in Hi. lia.
Qed.

Theorem C43_refuted : exists ws e cs r ev W, runs ws e cs r ev /\ transmissions "eth0" cs = [] /\
  Permutation (expectations "eth0" cs) W /\ Forall2 accepts W (received "eth0" ev) /\ r = 2.
Proof.
  exists ["rx"; "eth0"; "eth"; "dmac"; "ign"; "rx"; "eth0"; "eth"; "dmac"; "::1"]%string, (world [gets 0 (plain (eth_to 1)); gets 0 (plain (eth_to 2))]).
  do 4 eexists. split; [run|]. split; [vm_compute; reflexivity|]. split; [apply perm_swap|]. split; [|reflexivity].
  constructor; [|constructor; [|constructor]].
  - split; [eexists; split; reflexivity|]. eexists. split; [reflexivity|]. split; reflexivity.
  - split; [eexists; split; reflexivity|]. eexists. split; [reflexivity|]. split; [reflexivity|]. cbv beta iota delta [c_mask]. intros i Hi.
    do 60 (destruct i as [|i]; [vm_compute; reflexivity|]). exfalso. cbn [length] in Hi. lia.
Qed.
Print Assumptions C43_refuted.

(** C44.  Full claim: without [no_echo].  A received frame that matches a pending tx command
    counts as received correctly; whether it is still pending depends on the schedule. *)
Theorem C44_interfaces_partial : forall ws1 e1 cs1 r1 ev1 ws2 e2 cs2 r2 ev2 ifn, runs ws1 e1 cs1 r1 ev1 -> runs ws2 e2 cs2 r2 ev2 ->
  commands_on ifn cs1 = commands_on ifn cs2 -> received ifn ev1 = received ifn ev2 -> no_echo ifn cs1 ev1 ->
  receptions ifn ev1 = receptions ifn ev2 /\ reported_missing ifn ev1 = reported_missing ifn ev2.
Proof. exact interfaces_independent. Qed.
Print Assumptions C44_interfaces_partial.

Example C44_case : exists cs1 ev1 cs2 ev2,
  runs ["rx"; "eth0"; "eth"; "dmac"; "::1"; "rx"; "eth1"; "eth"] (world [gets 0 (plain (eth_to 1)); gets 1 (plain (eth_all)); gets 0 (plain (eth_to 2))]) cs1 1 ev1 /\
  runs ["tx"; "eth2"; "eth"; "rx"; "eth0"; "eth"; "dmac"; "::1"] (world [puts; gets 1 (plain (eth_to 1)); gets 1 (plain (eth_to 2))]) cs2 1 ev2 /\
  commands_on "eth0" cs1 = commands_on "eth0" cs2 /\ received "eth0" ev1 = received "eth0" ev2 /\ no_echo "eth0" cs1 ev1 /\ length (received "eth0" ev1) = 2%nat.
Proof. do 4 eexists. split; [run|]. split; [run|]. split; [vm_compute; reflexivity|]. split; [vm_compute; reflexivity|]. split; [silent|vm_compute; reflexivity]. Qed.

Theorem C44_refuted : exists ws e1 e2 cs r1 r2 ev1 ev2, runs ws e1 cs r1 ev1 /\ runs ws e2 cs r2 ev2 /\
  received "eth0" ev1 = received "eth0" ev2 /\ r1 = 1 /\ r2 = 2.
Proof.
  exists ["tx"; "eth0"; "eth"; "rx"; "eth0"; "eth"; "dmac"; "::1"]%string, (world [gets 0 (plain (eth_all)); puts]), (world [puts; gets 0 (plain (eth_all))]).
  do 5 eexists. split; [run|]. split; [run|]. split; [vm_compute; reflexivity|]. split; reflexivity.
Qed.
Print Assumptions C44_refuted.

(** C45.  Full claim: without [no_echo]. *)
Theorem C45_unexpected_is_error_partial : forall ws e cs r ev ifn, runs ws e cs r ev -> no_echo ifn cs ev ->
  forall ok b, In (ok, b) (receptions ifn ev) -> (forall c, In c (expectations ifn cs) -> ~ accepts c b) -> ok = false.
Proof. exact unexpected_is_error. Qed.
Print Assumptions C45_unexpected_is_error_partial.

Theorem C45_transmission_independent_partial : forall ws e1 e2 cs r1 r2 ev1 ev2, runs ws e1 cs r1 ev1 -> runs ws e2 cs r2 ev2 ->
  Forall2 same_but_received (e_rounds e1) (e_rounds e2) ->
  (forall ifn, no_echo ifn cs ev1) -> (forall ifn, no_echo ifn cs ev2) -> filter is_transmit ev1 = filter is_transmit ev2.
Proof. exact transmission_independent. Qed.
Print Assumptions C45_transmission_independent_partial.

Example C45_case : exists cs ev, runs ["tx"; "eth0"; "eth"; "rx"; "eth0"; "eth"; "dmac"; "::1"] (world [gets 0 (plain (eth_to 3)); puts]) cs 2 ev /\
  no_echo "eth0" cs ev /\ receptions "eth0" ev = [(false, eth_to 3)] /\ sends "eth0" ev = [(eth_all, true)].
Proof.
  do 2 eexists. split; [run|]. split; [|split; vm_compute; reflexivity].
  intros b c Hb Hc [_ [x [Hx [_ Ha]]]]. vm_compute in Hb. destruct Hb as [<-|[]]. cbn in Hc. destruct Hc as [<-|[]]. vm_compute in Hx, Ha. congruence.
Qed.

(** The frame matches no expectation, is accepted, and is not transmitted any more. *)
Theorem C45_refuted : exists ws cs e e' r r' ev ev' b, runs ws e cs r ev /\ runs ws e' cs r' ev' /\ Forall2 same_but_received (e_rounds e) (e_rounds e') /\
  In (true, b) (receptions "eth0" ev) /\ (forall c, In c (expectations "eth0" cs) -> ~ accepts c b) /\ sends "eth0" ev = [] /\ sends "eth0" ev' = [(b, true)].
Proof.
  exists ["tx"; "eth0"; "eth"; "rx"; "eth0"; "eth"; "dmac"; "::1"]%string. eexists. exists (world [gets 0 (plain (eth_all)); puts]), (world [gets 1 (plain (eth_all)); puts]).
  do 4 eexists. exists (eth_all). split; [run|]. split; [run|]. split; [repeat constructor|]. split; [vm_compute; auto|]. split; [|split; vm_compute; reflexivity].
  intros c Hc [_ [x [Hx [_ Ha]]]]. cbn in Hc. destruct Hc as [<-|[]]. vm_compute in Hx, Ha. congruence.
Qed.
Print Assumptions C45_refuted.

(** C49.  Full claim: for every message.  It holds for messages of up to 32763 bytes, with a
    tag of at least 12 bytes. *)
Theorem C49_tags_partial : forall ws e cs r ev ifn i, runs ws e cs r ev -> nth_error (interfaces cs) i = Some ifn ->
  (exists c, In c (commands_on ifn cs) /\ is_rx c = true) ->
  Forall ordinary (delivered i (served (e_rounds e))) -> received ifn ev = map put_tag (delivered i (served (e_rounds e))).
Proof. exact received_delivered. Qed.
Print Assumptions C49_tags_partial.

(** The kernel took the tag out of the expected frame. *)
Example C49_case : let m := MkRx ([255; 255; 255; 255; 255; 255; 0; 0; 0; 0; 0; 1] ++ zeros 44) (Some (33024, 5)) in
  exists cs ev, runs ["rx"; "eth0"; "eth"; "ctag"; "vid"; "5"] (world [gets 0 m]) cs 0 ev /\ Forall ordinary (delivered 0 (served [gets 0 m])) /\
  received "eth0" ev = [[255; 255; 255; 255; 255; 255; 0; 0; 0; 0; 0; 1; 129; 0; 0; 5] ++ zeros 44].
Proof.
  intros m. do 2 eexists. split; [run|]. split; [|vm_compute; reflexivity]. constructor; [|constructor]. split; [vm_compute; auto|]. intros _. vm_compute. lia.
Qed.

(** A tagged message of less than 12 bytes makes memmove read and write out of bounds; one of
    32764 bytes is compared without the tag. *)
Theorem C49_refuted :
  argc_cmds ["rx"; "eth0"] (world [gets 0 (MkRx (zeros 11) (Some (33024, 5)))]) = Crash Neg_size /\
  exists cs r ev m, rx_vlan m <> None /\ runs ["rx"; "eth0"] (world [gets 0 m]) cs r ev /\ received "eth0" ev = [rx_data m].
Proof.
  split; [vm_compute; reflexivity|]. set (m := MkRx (zeros (Z.to_nat 32764)) (Some (33024, 5))).
  assert (HL : Z.of_nat (length (rx_data m)) = 32764) by (cbn [rx_data m]; unfold zeros; rewrite repeat_length; reflexivity).
  destruct (hears m (rx_data m)) as [cs HR]; [apply rx_frame_big; lia|]. exists cs, 1, [EvRxErr "eth0" (rx_data m)], m. split; [discriminate|]. split; [exact HR|reflexivity].
Qed.
Print Assumptions C49_refuted.

(** ** Transmissions *)

(** C46.  Full claim: also if received frames match frames to be sent, and for "rep 0".
    [j] commands get their turn, all of them if the socket is writable often enough. *)
Theorem C46_transmitted_partial : forall ws e cs r ev ifn i, runs ws e cs r ev -> no_echo ifn cs ev -> all_sent (e_rounds e) -> nth_error (interfaces cs) i = Some ifn ->
  exists j, (j <= length (transmissions ifn cs))%nat /\
  sends ifn ev = flat_map (fun c => repeat (frame_of c, true) (Z.to_nat (times c))) (firstn j (transmissions ifn cs)) /\
  reported_tx ifn ev = map frame_of (firstn j (transmissions ifn cs)) /\
  ((length (transmissions ifn cs) <= writable i (served (e_rounds e)))%nat -> j = length (transmissions ifn cs)).
Proof. exact transmitted. Qed.
Print Assumptions C46_transmitted_partial.

(** It holds on interfaces without rx commands, since nothing is received there. *)
Theorem C46_transmit_only : forall ws e cs r ev ifn i, runs ws e cs r ev -> (forall c, In c (commands_on ifn cs) -> is_rx c = false) ->
  all_sent (e_rounds e) -> nth_error (interfaces cs) i = Some ifn ->
  exists j, (j <= length (transmissions ifn cs))%nat /\
  sends ifn ev = flat_map (fun c => repeat (frame_of c, true) (Z.to_nat (times c))) (firstn j (transmissions ifn cs)) /\
  reported_tx ifn ev = map frame_of (firstn j (transmissions ifn cs)) /\
  ((length (transmissions ifn cs) <= writable i (served (e_rounds e)))%nat -> j = length (transmissions ifn cs)).
Proof. exact transmit_only. Qed.
Print Assumptions C46_transmit_only.

(** Whatever the outcome of the sends, the commands are served in order. *)
Theorem C46_order_partial : forall ws e cs r ev ifn, runs ws e cs r ev -> no_echo ifn cs ev -> queue (transmissions ifn cs) (sends ifn ev) (reported_tx ifn ev).
Proof. exact transmit_queue. Qed.
Print Assumptions C46_order_partial.

Example C46_case : exists cs ev,
  runs ["tx"; "eth0"; "rep"; "2"; "eth"; "dmac"; "::1"; "tx"; "eth0"; "eth"; "dmac"; "::2"] (world [puts; puts]) cs 0 ev /\ no_echo "eth0" cs ev /\ all_sent [puts; puts] /\
  sends "eth0" ev = [(eth_to 1, true); (eth_to 1, true); (eth_to 2, true)].
Proof.
  do 2 eexists. split; [run|]. split; [intros b c Hb; vm_compute in Hb; destruct Hb|]. split; [|vm_compute; reflexivity]. intros rd k [<-|[<-|[]]]; reflexivity.
Qed.

(** [times] in terms of the words. *)
Theorem C46_once : forall ifn F c, command_words ("tx" :: ifn :: F) c -> (forall r, F <> "rep" :: r /\ F <> "repeat" :: r)%string -> times c = 1.
Proof. exact times_once. Qed.
Print Assumptions C46_once.

Theorem C46_count : forall ifn rep k n F c, In rep ["rep"; "repeat"]%string -> command_words ("tx" :: ifn :: rep :: k :: F) c ->
  denotes 10 k n -> 0 < n < 2 ^ 32 -> times c = n.
Proof. exact times_given. Qed.
Print Assumptions C46_count.

(** "rep 0" sends 2^32 frames. *)
Theorem C46_refuted : exists cs r ev, runs ["tx"; "eth0"; "rep"; "0"; "eth"] (world [puts]) cs r ev /\ Z.of_nat (length (sends "eth0" ev)) = 2 ^ 32.
Proof. exact rep_zero. Qed.
Print Assumptions C46_refuted.

(** C47.  Full claim: a transmission that was not completed makes the result non-zero.  It does
    not; only the report of the transmission is missing. *)
Theorem C47_reported_partial : forall ws e cs r ev ifn, runs ws e cs r ev -> no_echo ifn cs ev ->
  exists k, reported_tx ifn ev = map frame_of (firstn k (transmissions ifn cs)) /\ forall b, In b (reported_tx ifn ev) -> In (b, true) (sends ifn ev).
Proof. exact (fun ws e cs r ev ifn H HE => queue_reported _ _ _ (transmit_queue ws e cs r ev ifn H HE)). Qed.
Print Assumptions C47_reported_partial.

(** The second of three frames is on its way when the time is over. *)
Example C47_case : exists cs ev, runs ["tx"; "eth0"; "eth"; "tx"; "eth0"; "eth"; "dmac"; "::1"; "tx"; "eth0"; "eth"; "dmac"; "::2"] (world [puts; fails]) cs 0 ev /\ no_echo "eth0" cs ev /\
  reported_tx "eth0" ev = [eth_all] /\ sends "eth0" ev = [(eth_all, true); (eth_to 1, false)] /\ length (transmissions "eth0" cs) = 3%nat.
Proof. do 2 eexists. split; [run|]. split; [intros b c Hb; exfalso; vm_compute in Hb; exact Hb|]. split; [|split]; vm_compute; reflexivity. Qed.

Theorem C47_refuted :
  (exists cs ev, runs ["tx"; "eth0"; "eth"] (world []) cs 0 ev /\ sends "eth0" ev = []) /\
  (exists cs ev, runs ["tx"; "eth0"; "eth"] (world [fails]) cs 0 ev /\ sends "eth0" ev = [(eth_all, false)]).
Proof. split; do 2 eexists; (split; [run|vm_compute; reflexivity]). Qed.
Print Assumptions C47_refuted.

(** ** Results *)

(** C48.  [r] is the number of errors.  Full claim: for every number of errors; the exit status
    has 8 bits. *)
Theorem C48_exit_status_partial : forall args e s ev t caps ws r, getopt args = ORun t caps ws -> ef_main args e = Ret (s, ev) -> argc_cmds ws e = Ret (r, ev) ->
  (r = -1 \/ r = Z.of_nat (length (filter is_error ev))) /\
  ((length (filter is_error ev) < 256)%nat -> (s = 0 <-> r = 0)).
Proof.
  exact (fun args e s ev t caps ws r HG HM HA =>
    conj (match result_counts ws e r ev HA with or_introl (conj X _) => or_introl X | or_intror X => or_intror X end)
         (exit_status_zero args e s ev t caps ws r HG HM HA)).
Qed.
Print Assumptions C48_exit_status_partial.

Example C48_case : exists ev, ef_main ["-t"; "10"; "rx"; "eth0"; "eth"] (world []) = Ret (1, ev) /\ length (filter is_error ev) = 1%nat /\
  getopt ["-t"; "10"; "rx"; "eth0"; "eth"]%string = ORun 10 [] ["rx"; "eth0"; "eth"]%string.
Proof. eexists. split; [vm_compute; reflexivity|]. split; vm_compute; reflexivity. Qed.

Theorem C48_refuted : exists e ev, ef_main ["rx"; "eth0"] e = Ret (0, ev) /\ length (filter is_error ev) = 256%nat.
Proof. exists (world (repeat (gets 0 (plain (eth_to 1))) 256)). eexists. split; vm_compute; reflexivity. Qed.
Print Assumptions C48_refuted.

(** C50 *)
Theorem C50_replay : forall ws e r ev b m e', argc_cmds ws e = Ret (r, ev) -> In (EvHex b m) ev ->
  argc_cmds ["hex"; "data"; "hex"; hex_str b]%string e' = Ret (0, [EvHex b None]).
Proof.
  exact (fun ws e r ev b m e' H HI => match printed_frames ws e r ev b m H HI with conj X Y => replayed b e' X Y end).
Qed.
Print Assumptions C50_replay.

Example C50_case : exists ev b, argc_cmds ["hex"; "eth"; "dmac"; "::1"; "ipv4"; "udp"; "data"; "hex"; "aabb"] (world []) = Ret (0, ev) /\ ev = [EvHex b None] /\ length b = 60%nat.
Proof. do 2 eexists. split; [vm_compute; reflexivity|]. split; reflexivity. Qed.

(** C57.  Full claim: for every command line that is understood and every environment. *)
Theorem C57_execution_total_partial : forall ws e cs, parse_cmds ws = Ret (Some cs) -> no_padding cs -> all_sent (e_rounds e) -> Forall messages_fit (e_rounds e) ->
  exists r ev, argc_cmds ws e = Ret (r, ev).
Proof. exact execution_total. Qed.
Print Assumptions C57_execution_total_partial.

Example C57_case : exists cs, parse_cmds ["rx"; "eth0"; "eth"; "dmac"; "ign"; "tx"; "eth0"; "rep"; "3000000000"; "eth"] = Ret (Some cs) /\ no_padding cs /\
  all_sent [gets 0 (plain (eth_to 1)); puts] /\ Forall messages_fit [gets 0 (plain (eth_to 1)); puts].
Proof.
  eexists. split; [vm_compute; reflexivity|]. split; [|split].
  - intros c f [<-|[<-|[]]] H; cbn in H; inversion H; reflexivity.
  - intros rd k [<-|[<-|[]]]; reflexivity.
  - constructor; [|constructor; [intros i m H; discriminate H|constructor]]. intros i m H X. exfalso. apply X. destruct i; inversion H. reflexivity.
Qed.

(** A received frame longer by the padding is compared beyond the end of the expected one. *)
Theorem C57_refuted : exists ws e, argc_cmds ws e = Crash OOB_read.
Proof. exists ["rx"; "eth0"; "eth"; "padding"; "4"]%string, (world [gets 0 (plain (zeros 64))]). vm_compute. reflexivity. Qed.
Print Assumptions C57_refuted.
