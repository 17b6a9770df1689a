(** Property C65: from the words to the bytes.  Vocabulary: SpecWhole.v. *)

From Verif Require Import PTextIp PTextNum Frame SpecParse Exec SpecExec SpecFill SpecLayout SpecWhole PWhole.

(** The headers are those of [formats], with any fields in any order, any number of
    times.  The fields the program works out itself are those of C21 to C26, C31 and
    C55, which speak about every [serialised] frame; what they ask about names and
    given fields is [header_is].  100 words is the limit of the program itself. *)
Theorem C65_bytes : forall hs ps, Forall well_written hs -> Forall piece_ok ps ->
  Z.of_nat (length (text hs ps)) <= 100 -> Z.of_nat (length (payload ps)) <= 134000000 ->
  exists f f' b, argc_frame (text hs ps) = Ret (Some (length (text hs ps), f)) /\ serialised (text hs ps) f f' b /\ fr_has_mask f = false /\
    frame_is hs ps b /\ forall k p, nth_error hs k = Some p -> header_is f k p.
Proof. exact whole. Qed.
Print Assumptions C65_bytes.

(** The command "hex" prints these bytes and nothing else, and succeeds. *)
Theorem C65_printed : forall hs ps e, Forall well_written hs -> Forall piece_ok ps -> text hs ps <> [] ->
  Z.of_nat (length (text hs ps)) <= 100 -> Z.of_nat (length (payload ps)) <= 134000000 ->
  exists b, frame_is hs ps b /\ argc_cmds ("hex"%string :: text hs ps) e = Ret (0, [EvHex b None]).
Proof. exact whole_printed. Qed.
Print Assumptions C65_printed.

(** In every other command (C58) the words stand for these bytes as well. *)
Theorem C65_command : forall hs ps, Forall well_written hs -> Forall piece_ok ps -> text hs ps <> [] ->
  Z.of_nat (length (text hs ps)) <= 100 -> Z.of_nat (length (payload ps)) <= 134000000 ->
  exists f b, frame_is hs ps b /\ a_frame (text hs ps) f b None.
Proof. exact whole_command. Qed.
Print Assumptions C65_command.

Definition C65_headers : headers :=
  [ ("eth", [("dmac", "::2"); ("smac", "00:00:00:00:00:07")]); ("ctag", [("vid", "0x123"); ("pcp", "7"); ("vid", "5")]);
    ("ipv4", [("dip", "10.0.0.1")]); ("udp", [("dport", "0b101")]) ]%string.
Definition C65_payload : list piece := [Hex "c0de" [0xc0; 0xde]; Pattern Counting "70" 70].

(** A number: its base, digits and digit values. *)
Ltac num base body ds := exists base, body%string; split; [unfold is_radix, In; auto|split; [reflexivity|exists ds; split; [repeat constructor|reflexivity]]].
Ltac field off w x := split; [discriminate|exists off, w, x; split; [reflexivity|apply m_value; [cbn; intuition discriminate|]]].
Ltac group ds := split; [cbn; lia|exists ds; split; [repeat constructor|reflexivity]].

Example C65_case : Forall well_written C65_headers /\ Forall piece_ok C65_payload /\
  text C65_headers C65_payload = ["eth"; "dmac"; "::2"; "smac"; "00:00:00:00:00:07"; "ctag"; "vid"; "0x123"; "pcp"; "7"; "vid"; "5";
    "ipv4"; "dip"; "10.0.0.1"; "udp"; "dport"; "0b101"; "data"; "hex"; "c0de"; "pattern"; "cnt"; "70"]%string /\
  bits_of C65_headers = 8 * 46 /\ payload C65_payload = [0xc0; 0xde] ++ map Z.of_nat (seq 0 70).
Proof.
  split; [|split; [|split; [reflexivity|split; [reflexivity|vm_compute; reflexivity]]]].
  - unfold C65_headers. constructor; [|constructor; [|constructor; [|constructor; [|constructor]]]]; eexists; (split; [unfold format_named, formats; cbn [fst]; repeat (first [left; reflexivity|right])|]).
    + intros fld s [H|[H|[]]]; injection H as <- <-.
      * field 0 48 2. apply (vt_mac_short 6 [] ["2"]%string [] [2]); [reflexivity|constructor|constructor; [group [2]|constructor]|cbn; lia|intros [r H]; discriminate].
      * field 48 48 7. apply (vt_mac 6 ["00"; "00"; "00"; "00"; "00"; "07"]%string [0; 0; 0; 0; 0; 7]); [reflexivity| |reflexivity|intros [r H]; discriminate].
        do 5 (constructor; [group [0; 0]|]). constructor; [group [0; 7]|constructor].
    + intros fld s [H|[H|[H|[]]]]; injection H as <- <-.
      * field 4 12 0x123. apply vt_number; [lia|num 16 "123" [1; 2; 3]|lia].
      * field 0 3 7. apply vt_number; [lia|num 10 "7" [7]|lia].
      * field 4 12 5. apply vt_number; [lia|num 10 "5" [5]|lia].
    + intros fld s [H|[]]; injection H as <- <-. field 128 32 0x0a000001. apply (vt_ipv4 4 10 0 0 1); unfold is_byte; lia.
    + intros fld s [H|[]]; injection H as <- <-. field 16 16 5. apply vt_number; [lia|num 2 "101" [1; 0; 1]|lia].
  - constructor; [|constructor; [|constructor]].
    + split; [|discriminate]. apply (hd_byte _ _ 12 0); [reflexivity|reflexivity|]. apply (hd_byte _ _ 13 14); [reflexivity|reflexivity|constructor].
    + split; [num 10 "70" [7; 0]|lia].
Qed.

Example C65_case_bytes : exists b, frame_is C65_headers C65_payload b /\
  b = [0; 0; 0; 0; 0; 2; 0; 0; 0; 0; 0; 7; 0x81; 0; 0xe0; 5; 8; 0; 0x45; 0; 0; 100; 0; 0; 0; 0; 31; 17; 0x91; 0x89; 0; 0; 0; 0; 10; 0; 0; 1;
       0; 0; 0; 5; 0; 80; 0x89; 0x9c; 0xc0; 0xde] ++ map Z.of_nat (seq 0 70).
Proof.
  destruct C65_case as [H1 [H2 [H3 _]]]. destruct (C65_printed C65_headers C65_payload (MkEnv (fun _ => true) []) H1 H2) as [b [H4 H5]].
  - rewrite H3. discriminate.
  - rewrite H3. cbn. lia.
  - vm_compute. discriminate.
  - exists b. split; [exact H4|]. rewrite H3 in H5. vm_compute in H5. injection H5 as <-. vm_compute. reflexivity.
Qed.
