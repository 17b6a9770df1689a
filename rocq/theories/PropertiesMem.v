(** C68, C69, C70: memory. *)

From Verif Require Import SpecMem PMem6 PMem7.

(** C68.  Whatever the words of the command line, from the start of the process
    to its end no freed block is used or freed again, no block is freed that
    malloc did not return, and no block is taken for something else. *)
Theorem C68_no_memory_fault : forall ws f, m_process ws [] <> MFault f.
Proof. exact process_safe. Qed.
Print Assumptions C68_no_memory_fault.

(** The pointers add no other way to end abnormally. *)
Theorem C68_same_crashes : forall ws c, m_process ws [] = MCrash c <-> parse_cmds ws = Crash c.
Proof. exact process_crash. Qed.
Print Assumptions C68_same_crashes.

(** After the init functions, the templates are in memory. *)
Theorem C68_init : exists tab H, m_load_all hdr_tmpls [] = MRet tab H /\ only_templates H tab.
Proof. exact templates_loaded. Qed.
Print Assumptions C68_init.

(** The commands in memory, with the named frames looked up, are those of the
    rest of the model (which has no pointers); no two of them share a block;
    the templates are as they were; and when the commands are freed, the memory
    is as it was before the command line, but for what was lost (C69). *)
Theorem C68_commands : forall ws cs tab H, only_templates H tab -> parse_cmds ws = Ret (Some cs) ->
  exists ms H1 ms' H2 T, m_parse_cmds tab ws H = MRet (Some ms) H1 /\
    m_pair_loop [] ms H1 = MRet (ms', snd (fst (pair_cmds cs))) H2 /\
    are_cmds H2 ms' (fst (fst (pair_cmds cs))) T /\
    NoDup T /\ (forall a, In a T -> ~ live H a) /\ (forall a, live H2 a <-> In a T \/ live H a) /\
    (forall a, live H a -> nth_error H2 a = nth_error H a) /\
    exists H3, m_cleanup ms' H2 = MRet tt H3 /\ forall a, nth_error H3 a = nth_error H a \/ ~ live H3 a /\ ~ live H a.
Proof. exact commands_memory. Qed.
Print Assumptions C68_commands.

(** A refused command line leaves the templates as they were. *)
Theorem C68_refused : forall ws tab H, only_templates H tab -> parse_cmds ws = Ret None ->
  exists H', m_parse_cmds tab ws H = MRet None H' /\ (forall a, live H a -> nth_error H' a = nth_error H a).
Proof. exact refused_memory. Qed.
Print Assumptions C68_refused.

(** Two uses of a named frame, a frame with an ignored field, and a refused
    line. *)
Definition mem_line : list string :=
  ["name"; "f1"; "eth"; "dmac"; "1"; "ipv4"; "udp"; "hex"; "name"; "f1"; "hex"; "name"; "f1";
   "hex"; "eth"; "smac"; "ign"; "data"; "pattern"; "cnt"; "10"]%string.

Example C68_case : exists cs H,
  parse_cmds mem_line = Ret (Some cs) /\ length cs = 4%nat /\ m_process mem_line [] = MRet true H /\
  parse_cmds (mem_line ++ ["bogus"]) = Ret None /\ (length H > 224)%nat.
Proof.
  destruct (parse_cmds mem_line) as [[cs|]|] eqn:E; [| exfalso; revert E; vm_compute; discriminate ..].
  destruct (process_released _ _ E) as (tab & H & E2 & _). exists cs, H. split; [reflexivity|].
  split; [revert E; vm_compute; intros E; injection E as <-; reflexivity|]. split; [exact E2|].
  split; [vm_compute; reflexivity|]. revert E2. vm_compute. intros E2. injection E2 as <-. repeat constructor.
Qed.

(** C69.  When the commands have been carried out and the process ends, what is
    left of the memory obtained from malloc are default values of fields of the
    templates oam-lb, oam-lt and oam-raps, and -- only if the command line gives
    a CoAP token of more than 8 bytes, or a meg_id -- blocks no pointer leads
    to. *)
Theorem C69_released_partial : forall ws cs, parse_cmds ws = Ret (Some cs) ->
  exists tab H, m_process ws [] = MRet true H /\
    forall a, malloced H a ->
      (exists n, In n ["oam-lb"; "oam-lt"; "oam-raps"]%string /\ of_template H tab n a) \/
      lost H a /\ may_lose ws.
Proof. exact process_left. Qed.
Print Assumptions C69_released_partial.

(** So for every other command line nothing of it is left. *)
Example C69_case : exists cs, parse_cmds mem_line = Ret (Some cs) /\ ~ may_lose mem_line.
Proof.
  destruct (parse_cmds mem_line) as [[cs|]|] eqn:E; [| exfalso; revert E; vm_compute; discriminate ..].
  exists cs. split; [reflexivity|]. intros [(v & (pre & post & HF) & _)|HI].
  - assert (HI : In "token"%string mem_line) by (rewrite HF; apply in_or_app; right; left; reflexivity).
    cbn in HI. repeat (destruct HI as [HI|HI]; [discriminate|]). exact HI.
  - cbn in HI. repeat (destruct HI as [HI|HI]; [discriminate|]). exact HI.
Qed.

(** These are left in fact: src/ef-oam.c:304-312. *)
Theorem C69_refuted : exists ws cs H a, parse_cmds ws = Ret (Some cs) /\ m_process ws [] = MRet true H /\ malloced H a.
Proof.
  destruct (m_process [] []) as [b H| |] eqn:E; [| exfalso; revert E; vm_compute; discriminate ..].
  exists [], [], H, 138%nat. split; [reflexivity|].
  split; [revert E; vm_compute; intros E; injection E as <- <-; reflexivity|].
  revert E. vm_compute. intros E. injection E as _ <-. left. eexists. reflexivity.
Qed.
Print Assumptions C69_refuted.

(** An accepted line with a CoAP token of 9 bytes leaves a block no pointer leads
    to (src/ef-coap.c:64-67), and one with a MEG identifier of 49 bytes leaves two
    (src/ef-parse-bytes.c:581-584). *)
Definition long_token : list string := ["hex"; "coap"; "token"; "010203040506070809"]%string.
Definition long_meg_id : list string :=
  ["hex"; "oam-ccm"; "meg_id";
   "00112233445566778899aabbccddeeff00112233445566778899aabbccddeeff00112233445566778899aabbccddeeff00"]%string.

Theorem C69_lost_refuted :
  (exists cs H a, parse_cmds long_token = Ret (Some cs) /\ m_process long_token [] = MRet true H /\ lost H a) /\
  (exists cs H a, parse_cmds long_meg_id = Ret (Some cs) /\ m_process long_meg_id [] = MRet true H /\ lost H a /\ lost H (S a)).
Proof.
  split.
  - destruct (parse_cmds long_token) as [[cs|]|] eqn:E; [| exfalso; revert E; vm_compute; discriminate ..].
    destruct (process_released _ _ E) as (tab & H & E2 & _). exists cs, H, 232%nat. split; [reflexivity|]. split; [exact E2|].
    revert E2. vm_compute. intros E2. injection E2 as <-. eexists. reflexivity.
  - destruct (parse_cmds long_meg_id) as [[cs|]|] eqn:E; [| exfalso; revert E; vm_compute; discriminate ..].
    destruct (process_released _ _ E) as (tab & H & E2 & _). exists cs, H, 233%nat. split; [reflexivity|]. split; [exact E2|].
    revert E2. vm_compute. intros E2. injection E2 as <-. split; eexists; reflexivity.
Qed.
Print Assumptions C69_lost_refuted.

(** C70.  A copy of a frame stands for the same frame, shares no block with the
    original or anything else, and neither is affected when a block of the
    other is changed or the other is freed. *)
Theorem C70_frame_copy : forall H R a f S, in_use H (S ++ R) -> is_frame H a f S ->
  exists a' H' T, m_frame_clone (Some a) H = MRet (Some a') H' /\ is_frame H' a f S /\ is_frame H' a' f T /\
    in_use H' (T ++ S ++ R) /\ untouched H H' (S ++ R) /\
    (forall x b H2, write x b H' = MRet tt H2 ->
       (In x T -> is_frame H2 a f S) /\ (In x S -> is_frame H2 a' f T)) /\
    (exists H2, m_frame_free (Some a) H' = MRet tt H2 /\ is_frame H2 a' f T /\ in_use H2 (T ++ R)) /\
    (exists H2, m_frame_free (Some a') H' = MRet tt H2 /\ is_frame H2 a f S /\ in_use H2 (S ++ R)).
Proof. exact frame_copy_memory. Qed.
Print Assumptions C70_frame_copy.

(** Computing the bytes of a frame fills in its defaults, and changes no other
    block. *)
Theorem C70_bytes : forall H R a f S, in_use H (S ++ R) -> is_frame H a f S ->
  match frame_to_buf f with
  | Crash c => m_frame_to_buf a H = MCrash c
  | Ret (f1, b) => exists x H' T, m_frame_to_buf a H = MRet x H' /\ holds H' x false (BBuf b) /\
      is_frame H' a f1 T /\ in_use H' (x :: T ++ R) /\ untouched H H' R
  end.
Proof. exact to_buf_memory. Qed.
Print Assumptions C70_bytes.

(** A header copied from a template and filled in from the command line leaves
    the template as it is. *)
Theorem C70_template : forall H R t h St ws pad mask, in_use H R -> is_hdr true H t h St -> incl St R ->
  exists a H1 S, m_hdr_clone t H = MRet a H1 /\ is_hdr false H1 a h S /\
  match parse_hdr ws h pad mask with
  | Crash c => m_parse_hdr ws a pad mask H1 = MCrash c
  | Ret PErr => exists H2, m_parse_hdr ws a pad mask H1 = MRet MPErr H2 /\ is_hdr true H2 t h St
  | Ret (POk n h' pad' mask') => exists H2 T, m_parse_hdr ws a pad mask H1 = MRet (MPOk n pad' mask') H2 /\
      is_hdr false H2 a h' T /\ is_hdr true H2 t h St /\ in_use H2 (T ++ R)
  end.
Proof. exact template_copy_memory. Qed.
Print Assumptions C70_template.

(** A frame with one header of one field, in a memory that holds it and one
    other block. *)
Example C70_case : exists H f S, in_use H (S ++ [4%nat]) /\ is_frame H 0%nat f S /\ fr_stack f <> [].
Proof.
  exists [Live false (BFrame (MkMFrame [1%nat] 0 false));
          Live false (BHdr (MkMHdr "x" 0 1 (Some 2%nat) FL_none HP_fields));
          Live false (BFields [MkMField "f" false 8 0 None (Some 3%nat) FP_default]);
          Live false (BBuf [7]); Live false (BStr "s")],
    (MkFrame [MkHdr "x" 0 1 [MkField "f" false 8 0 None (Some [7]) FP_default] FL_none HP_fields] 0 false), [0; 1; 2; 3]%nat.
  split; [|split; [|discriminate]].
  - split; [repeat constructor; cbn; intuition discriminate|]. intros a. split.
    + cbn. intros [<-|[<-|[<-|[<-|[<-|[]]]]]]; eexists; eexists; reflexivity.
    + intros (s & b & E). unfold holds in E. do 5 (destruct a as [|a]; [cbn; tauto|]). destruct a; discriminate.
  - exists [1%nat], [1; 2; 3]%nat. split; [reflexivity|]. split; [|reflexivity]. change [1; 2; 3]%nat with ([1; 2; 3] ++ [])%nat. constructor; [|constructor].
    eexists. split; [reflexivity|]. cbn [mh_name mh_type mh_size mh_fill mh_parser mh_fields]. repeat (split; [reflexivity|]).
    eexists. split; [|split; [reflexivity|split; [|reflexivity]]]; [discriminate|]. repeat constructor.
Qed.
