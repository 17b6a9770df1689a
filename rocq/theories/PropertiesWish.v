(** Property C83: an expectation written in words, with ignored fields, accepts exactly
    the frames that agree with it outside of these fields.  Vocabulary: SpecWish.v. *)

From Verif Require Import Frame SpecParse SpecFrame Exec SpecExec SpecFill SpecLayout SpecWhole SpecExact SpecForm SpecWish BaseFacts PWish4 PropertiesWhole PropertiesForm.

(** The commands "rx" and "name" with the words of an expectation: they compare the bits
    of the frame the words describe that are not in an ignored field, and no others. *)
Theorem C83_accepts : forall w a ws c b rx, In w ["rx"; "name"]%string -> well_asked ws -> sv_full ws -> command_words (w :: a :: asked ws) c -> spelled (map plain ws) b -> Forall is_byte rx ->
  (accepts c rx <-> length rx = length b /\ forall i, 0 <= i < 8 * Z.of_nat (length b) -> ~ disregarded ws i -> bit_at rx i = bit_at b i).
Proof. exact wishes_accept. Qed.
Print Assumptions C83_accepts.

(** There is such a command, and its frame is the one the words describe. *)
Theorem C83_command : forall w a ws, In w ["rx"; "name"]%string -> well_asked ws -> roomy ws ->
  exists c, command_words (w :: a :: asked ws) c /\ exists b, c_buf c = Some b /\ spelled (map plain ws) b.
Proof. exact wishes_command. Qed.
Print Assumptions C83_command.

(** *** A case: everything of the Ethernet header but the destination, two fields of the
    IPv4 header, one of which had a value first, and a field that is wanted after all. *)
Definition C83_case : list wish :=
  [ (Header "eth" [("dmac", "::2")], C82_format "eth", Some "ign");
    (Header "ipv4" [("id", "7"); ("dip", "10.0.0.1"); ("id", "ignore"); ("chksum", "ign"); ("ttl", "ign"); ("ttl", "9")], C82_format "ipv4", None);
    (Header "udp" [("dport", "5683"); ("sport", "ign"); ("chksum", "ignore")], C82_format "udp", None);
    (Data [Hex "04000000" [4; 0; 0; 0]; Pattern Zeroes "16" 16], [("-", 8 * 20)], None) ]%string.

Ltac wished off w := split; [cbn; intuition discriminate|exists off, w; split; [reflexivity|]; split; [|cbn; intuition discriminate]].

Example C83_case_asked : well_asked C83_case /\ maskable C83_case /\
  asked C83_case = ["eth"; "ign"; "dmac"; "::2"; "ipv4"; "id"; "7"; "dip"; "10.0.0.1"; "id"; "ignore"; "chksum"; "ign"; "ttl"; "ign"; "ttl"; "9";
    "udp"; "dport"; "5683"; "sport"; "ign"; "chksum"; "ignore"; "data"; "hex"; "04000000"; "pattern"; "zero"; "16"]%string /\
  map fst (map plain C83_case) = [Header "eth" [("dmac", "::2")]; Header "ipv4" [("dip", "10.0.0.1"); ("ttl", "9")]; Header "udp" [("dport", "5683")];
    Data [Hex "04000000" [4; 0; 0; 0]; Pattern Zeroes "16" 16]]%string.
Proof.
  assert (DM : stands_for "eth" "dmac" 48 "::2" 2).
  { ordinary. apply (vt_mac_short 6 [] ["2"]%string [] [2]); [reflexivity|constructor|constructor; [group [2]|constructor]|cbn; lia|intros [r H]; discriminate]. }
  assert (DI : stands_for "ipv4" "dip" 32 "10.0.0.1" 0x0a000001) by (ordinary; apply (vt_ipv4 4 10 0 0 1); unfold is_byte; lia).
  assert (TT : stands_for "ipv4" "ttl" 8 "9" 9) by (ordinary; apply vt_number; [lia|num 10 "9" [9]|lia]).
  assert (ID : stands_for "ipv4" "id" 16 "7" 7) by (ordinary; apply vt_number; [lia|num 10 "7" [7]|lia]).
  assert (DP : stands_for "udp" "dport" 16 "5683" 5683) by (ordinary; apply vt_number; [lia|num 10 "5683" [5; 6; 8; 3]|lia]).
  split; [|split; [|split; reflexivity]].
  - split; [discriminate|]. split; [|split; [|split; [|split; [cbn; lia|vm_compute; discriminate]]]].
    + unfold C83_case. apply Forall_cons; [split|apply Forall_cons; [split|apply Forall_cons; [split|apply Forall_cons; [split|apply Forall_nil]]]].
      * split; cbn [plain fst snd]; [table|]. intros fld s [H|[]]; injection H as <- <-. given 0 48 2. exact DM.
      * split; [intros w H; injection H as <-; reflexivity|]. intros fld s [H|[]]; injection H as <- <-. wished 0 48. right. exists 2. exact DM.
      * split; cbn [plain fst snd]; [table|]. intros fld s [H|[H|[]]]; injection H as <- <-; [given 128 32 0x0a000001; exact DI|given 64 8 9; exact TT].
      * split; [intros w H; discriminate H|]. intros fld s [H|[H|[H|[H|[H|[H|[]]]]]]]; injection H as <- <-.
        -- wished 32 16. right. exists 7. exact ID.
        -- wished 128 32. right. exists 0x0a000001. exact DI.
        -- wished 32 16. left. reflexivity.
        -- wished 80 16. left. reflexivity.
        -- wished 64 8. left. reflexivity.
        -- wished 64 8. right. exists 9. exact TT.
      * split; cbn [plain fst snd]; [table|]. intros fld s [H|[]]; injection H as <- <-. given 16 16 5683. exact DP.
      * split; [intros w H; discriminate H|]. intros fld s [H|[H|[H|[]]]]; injection H as <- <-.
        -- wished 16 16. right. exists 5683. exact DP.
        -- wished 0 16. left. reflexivity.
        -- wished 48 16. left. reflexivity.
      * split; cbn [plain fst snd].
        -- apply (fm_raw _ ([4; 0; 0; 0] ++ repeat 0 16)). apply (rb_data [Hex "04000000" [4; 0; 0; 0]; Pattern Zeroes "16" 16]).
        -- split; [discriminate|]. constructor; [|constructor; [|constructor]].
           ++ split; [|discriminate]. apply (hd_byte _ _ 0 4); [reflexivity|reflexivity|]. do 3 (apply (hd_byte _ _ 0 0); [reflexivity|reflexivity|]). constructor.
           ++ split; [num 10 "16" [1; 6]|lia].
      * reflexivity.
    + intros k asg m H. do 5 (destruct k as [|k]; [discriminate H|]). discriminate H.
    + intros k asg m ps m' H. do 5 (destruct k as [|k]; [discriminate H|]). discriminate H.
  - split; [intros asg m all H; cbn [C83_case In] in H; destruct H as [H|[H|[H|[H|[]]]]]; discriminate H|]. intros k n asg m all H. do 4 (destruct k as [|k]; [unfold C83_case in H; cbn [nth_error] in H; try discriminate H; injection H as <- _ _ _; vm_compute; discriminate|]). destruct k; discriminate H.
Qed.

(** Also an IGMP message, of a frame that is filled up to 60 bytes. *)
Definition C83_igmp : list wish :=
  [ (Header "eth" [], C82_format "eth", None);
    (Header "ipv4" [("sip", "ign")], C82_format "ipv4", None);
    (Header "igmp" [("type", "0x16"); ("chksum", "ignore"); ("ga", "224.0.0.7")], igmp_form false false, None) ]%string.

Example C83_igmp_asked : well_asked C83_igmp /\ maskable C83_igmp.
Proof.
  assert (TY : stands_for "igmp" "type" 8 "0x16" 0x16) by (ordinary; apply vt_number; [lia|num 16 "16" [1; 6]|lia]).
  assert (GA : stands_for "igmp" "ga" 32 "224.0.0.7" 0xe0000007) by (ordinary; apply (vt_ipv4 4 224 0 0 7); unfold is_byte; lia).
  split.
  - split; [discriminate|]. split; [|split; [|split; [|split; [cbn; lia|vm_compute; discriminate]]]].
    + unfold C83_igmp. apply Forall_cons; [split|apply Forall_cons; [split|apply Forall_cons; [split|apply Forall_nil]]].
      * split; cbn [plain fst snd]; [table|]. intros fld s [].
      * split; [intros w H; discriminate H|]. intros fld s [].
      * split; cbn [plain fst snd]; [table|]. intros fld s [].
      * split; [intros w H; discriminate H|]. intros fld s [H|[]]; injection H as <- <-. wished 96 32. left. reflexivity.
      * split; cbn [plain fst snd]; [apply fm_igmp|]. intros fld s [H|[H|[]]]; injection H as <- <-; [given 0 8 0x16; exact TY|given 32 32 0xe0000007; exact GA].
      * split; [intros w H; discriminate H|]. intros fld s [H|[H|[H|[]]]]; injection H as <- <-.
        -- wished 0 8. right. exists 0x16. exact TY.
        -- wished 16 16. left. reflexivity.
        -- wished 32 32. right. exists 0xe0000007. exact GA.
    + intros k asg m H. do 3 (destruct k as [|k]; [discriminate H|]). destruct k; discriminate H.
    + intros k asg m ps m' H. do 3 (destruct k as [|k]; [discriminate H|]). destruct k; discriminate H.
  - split; [intros asg m all H; cbn [C83_igmp In] in H; destruct H as [H|[H|[H|[]]]]; discriminate H|]. intros k n asg m all H. do 3 (destruct k as [|k]; [unfold C83_igmp in H; cbn [nth_error] in H; injection H as <- _ _ _; vm_compute; discriminate|]). destruct k; discriminate H.
Qed.

(** The type of the Ethernet header and the identification are not compared, the
    time-to-live and the data are. *)
Example C83_case_bits : disregarded C83_case 96 /\ disregarded C83_case 144 /\ ~ disregarded C83_case 176 /\ ~ disregarded C83_case 336.
Proof.
  assert (N : forall i, (i = 176 \/ i = 336) -> ~ disregarded C83_case i).
  { intros i Hi [k [n [asg [m [all [fld [off [w [H1 [H2 [H3 H4]]]]]]]]]]]. destruct k as [|[|[|[|k]]]]; unfold C83_case in H1; cbn [nth_error] in H1; [| | |discriminate H1|destruct k; discriminate H1]; apply some_inj in H1; apply pair_inj in H1; destruct H1 as [H1 <-]; apply pair_inj in H1; destruct H1 as [H1 <-]; assert (A := f_equal (fun p => match p with Header _ x => x | _ => [] end) H1); cbn beta iota in A; subst asg; clear H1;
    match type of H4 with ?t + off <= _ < _ => let v := eval vm_compute in t in change t with v in H4 end; unfold place in H2; match type of H2 with context [C82_format ?x] => let v := eval vm_compute in (C82_format x) in change (C82_format x) with v in H2 end; cbn [place_from] in H2;
    repeat (match type of H2 with context [String.eqb ?x fld] => destruct (String.eqb_spec x fld) as [<-|] end; [apply some_inj in H2; apply pair_inj in H2; first [lia|discriminate H3]|]); discriminate H2. }
  split; [|split; [|split; apply N; auto]].
  - exists 0%nat, "eth"%string, [("dmac", "::2")]%string, (C82_format "eth"), (Some "ign"%string), "et"%string, 96, 16. split; [reflexivity|]. split; [reflexivity|]. split; [reflexivity|]. cbn. lia.
  - eexists 1%nat, _, _, _, _, "id"%string, 32, 16. split; [reflexivity|]. split; [reflexivity|]. split; [reflexivity|]. vm_compute. split; [discriminate|reflexivity].
Qed.

Example C83_case_command : exists c b, command_words ("rx" :: "eth0" :: asked C83_case)%string c /\ c_buf c = Some b /\ spelled (map plain C83_case) b /\ accepts c b.
Proof.
  destruct C83_case_asked as [H1 [H2 _]]. destruct (C83_command "rx" "eth0" C83_case ltac:(left; reflexivity) H1 (proj2 H2)) as [c [HC [b [Hb HS]]]]. exists c, b. split; [exact HC|]. split; [exact Hb|]. split; [exact HS|].
  apply (C83_accepts "rx" "eth0" C83_case c b b); auto; [left; reflexivity|exact (proj1 H2)|apply (sp_bytes _ _ HS)].
Qed.
