(** Property C82: the words determine every bit of the frame, whatever headers of
    published format it has.  Vocabulary: SpecForm.v. *)

From Verif Require Import Frame SpecParse Exec SpecExec SpecFill SpecLayout SpecWhole SpecExact SpecForm PForm7 PropertiesWhole.

(** At most one byte string is the frame. *)
Theorem C82_unique : forall its b b', Forall well_put its -> spelled its b -> spelled its b' -> b = b'.
Proof. exact spelled_one. Qed.
Print Assumptions C82_unique.

(** It is the one the program makes of the words.  The limit on the size is that of
    C23: above 131072 bytes the sum of a checksum wraps around. *)
Theorem C82_bytes : forall its, Forall well_put its -> addressed its -> separate its -> (length (spoken its) <= 100)%nat -> total its <= 8 * 130000 ->
  exists f f' b, argc_frame (spoken its) = Ret (Some (length (spoken its), f)) /\ serialised (spoken its) f f' b /\ fr_has_mask f = false /\ spelled its b.
Proof. exact parts_spelled. Qed.
Print Assumptions C82_bytes.

(** The command "hex" prints it ... *)
Theorem C82_printed : forall its e b, its <> [] -> Forall well_put its -> addressed its -> separate its -> (length (spoken its) <= 100)%nat -> total its <= 8 * 130000 ->
  (spelled its b <-> argc_cmds ("hex"%string :: spoken its) e = Ret (0, [EvHex b None])).
Proof. exact parts_printed. Qed.
Print Assumptions C82_printed.

(** ... and in every other command (C58) the words stand for it. *)
Theorem C82_command : forall its b, its <> [] -> Forall well_put its -> addressed its -> separate its -> (length (spoken its) <= 100)%nat -> total its <= 8 * 130000 ->
  (spelled its b <-> exists f, a_frame (spoken its) f b None).
Proof. exact parts_command. Qed.
Print Assumptions C82_command.

(** *** Cases *)
Definition C82_format (n : string) : format := match find (fun p => String.eqb (fst p) n) formats with Some p => snd p | None => [] end.

(** A CoAP message with a token, two options (one of them long) and a payload. *)
Definition C82_coap : list item :=
  [ (Header "eth" [], C82_format "eth"); (Header "ipv4" [("dip", "10.0.0.1")], C82_format "ipv4"); (Header "udp" [("dport", "5683")], C82_format "udp");
    (Header "coap" [("code", "0.02"); ("token", "c0de")], coap_form 16);
    (CoapOption "11" [Ascii_ "abc"], [("-", 8 * 4)]); (CoapOption "300" [Pattern Ones "20" 20], [("-", 8 * 24)]); (CoapPayload [Ascii_ "hi"], [("-", 8 * 3)]) ]%string.

(** A report of RFC 3810 in an IPv6 packet. *)
Definition C82_mld : list item :=
  [ (Header "eth" [("dmac", "::2")], C82_format "eth"); (Header "ipv6" [("sip", "::1"); ("dip", "ff02::16")], C82_format "ipv6");
    (Header "mld" [("type", "143"); ("ng", "1")], mld_form true false); (Data [Hex "04000000" [4; 0; 0; 0]; Pattern Zeroes "16" 16], [("-", 8 * 20)]) ]%string.

Ltac table := apply fm_table; [unfold format_named, formats; repeat (first [left; reflexivity|right])|try (intros K; discriminate K)].
Ltac given off w x := split; [cbn; intuition discriminate|exists off, w, x; split; [reflexivity|]].
Ltac ordinary := apply sf_means; [cbn; intuition discriminate|apply m_value; [cbn; intuition discriminate|]].

Example C82_coap_case : Forall well_put C82_coap /\ addressed C82_coap /\ separate C82_coap /\
  spoken C82_coap = ["eth"; "ipv4"; "dip"; "10.0.0.1"; "udp"; "dport"; "5683"; "coap"; "code"; "0.02"; "token"; "c0de"; "coap-opt"; "num"; "11"; "val"; "ascii"; "abc";
    "coap-opt"; "num"; "300"; "val"; "pattern"; "ones"; "20"; "coap-parms"; "par"; "ascii"; "hi"]%string /\ total C82_coap = 8 * 79.
Proof.
  split; [|split; [|split; [|split; reflexivity]]].
  - unfold C82_coap. apply Forall_cons; [split; cbn [fst snd]|apply Forall_cons; [split; cbn [fst snd]|apply Forall_cons; [split; cbn [fst snd]|apply Forall_cons; [split; cbn [fst snd]|apply Forall_cons; [split; cbn [fst snd]|apply Forall_cons; [split; cbn [fst snd]|apply Forall_cons; [split; cbn [fst snd]|apply Forall_nil]]]]]]].
    + table.
    + intros fld s [].
    + table.
    + intros fld s [H|[]]. injection H as <- <-. given 128 32 0x0a000001. ordinary. apply (vt_ipv4 4 10 0 0 1); unfold is_byte; lia.
    + table.
    + intros fld s [H|[]]. injection H as <- <-. given 16 16 5683. ordinary. apply vt_number; [lia|num 10 "5683" [5; 6; 8; 3]|lia].
    + apply (fm_token _ "c0de" [0xc0; 0xde]); [reflexivity| |cbn; lia]. apply (hd_byte _ _ 12 0); [reflexivity|reflexivity|]. apply (hd_byte _ _ 13 14); [reflexivity|reflexivity|constructor].
    + intros fld s [H|[H|[]]]; injection H as <- <-.
      * given 8 8 2. apply sf_means; [cbn; intuition discriminate|]. apply (m_code _ _ _ 0 2); [reflexivity|lia|lia].
      * given 32 16 0xc0de. apply (sf_token _ _ _ _ [0xc0; 0xde]); [reflexivity| |cbn; lia]. apply (hd_byte _ _ 12 0); [reflexivity|reflexivity|]. apply (hd_byte _ _ 13 14); [reflexivity|reflexivity|constructor].
    + apply (fm_raw _ [0xb3; 97; 98; 99]). apply (rb_option "11" 11 [Ascii_ "abc"]); [num 10 "11" [1; 1]|lia].
    + split; [discriminate|]. split; [constructor; [exact I|constructor]|cbn; lia].
    + apply (fm_raw _ ([0xed; 0; 31; 7] ++ repeat 255 20)). apply (rb_option "300" 300 [Pattern Ones "20" 20]); [num 10 "300" [3; 0; 0]|lia].
    + split; [discriminate|]. split; [constructor; [split; [num 10 "20" [2; 0]|lia]|constructor]|vm_compute; reflexivity].
    + apply (fm_raw _ [255; 104; 105]). apply (rb_payload [Ascii_ "hi"]).
    + split; [discriminate|constructor; [exact I|constructor]].
  - intros k asg m H. do 8 (destruct k as [|k]; [discriminate H|]). discriminate H.
  - intros k asg m ps m' H. do 8 (destruct k as [|k]; [discriminate H|]). discriminate H.
Qed.

Example C82_coap_bytes : exists b, spelled C82_coap b /\
  b = [255; 255; 255; 255; 255; 255; 0; 0; 0; 0; 0; 1; 8; 0; 0x45; 0; 0; 65; 0; 0; 0; 0; 31; 17; 145; 172; 0; 0; 0; 0; 10; 0; 0; 1; 0; 0; 22; 51; 0; 45; 82; 73;
       0x42; 2; 0; 0; 0xc0; 0xde; 0xb3; 97; 98; 99; 0xed; 0; 31; 7] ++ repeat 255 20 ++ [255; 104; 105].
Proof.
  destruct C82_coap_case as [H1 [H2 [H3 [H4 H5]]]]. destruct (C82_bytes C82_coap H1 H2 H3) as [f [f' [b [_ [_ [_ HF]]]]]]; [rewrite H4; cbn; lia|rewrite H5; lia|].
  exists b. split; [exact HF|]. apply (C82_printed C82_coap (MkEnv (fun _ => true) [])) in HF; auto; [|discriminate|rewrite H4; cbn; lia|rewrite H5; lia].
  rewrite H4 in HF. vm_compute in HF. injection HF as <-. vm_compute. reflexivity.
Qed.

Example C82_mld_case : Forall well_put C82_mld /\ addressed C82_mld /\ separate C82_mld /\
  spoken C82_mld = ["eth"; "dmac"; "::2"; "ipv6"; "sip"; "::1"; "dip"; "ff02::16"; "mld"; "type"; "143"; "ng"; "1"; "data"; "hex"; "04000000"; "pattern"; "zero"; "16"]%string /\
  total C82_mld = 8 * 82.
Proof.
  split; [|split; [|split; [|split; reflexivity]]].
  - unfold C82_mld. apply Forall_cons; [split; cbn [fst snd]|apply Forall_cons; [split; cbn [fst snd]|apply Forall_cons; [split; cbn [fst snd]|apply Forall_cons; [split; cbn [fst snd]|apply Forall_nil]]]].
    + table.
    + intros fld s [H|[]]; injection H as <- <-. given 0 48 2. ordinary. apply (vt_mac_short 6 [] ["2"]%string [] [2]); [reflexivity|constructor|constructor; [group [2]|constructor]|cbn; lia|intros [r H]; discriminate].
    + table.
    + intros fld s [H|[H|[]]]; injection H as <- <-.
      * given 64 128 1. ordinary. apply (vt_ipv6_short 16 [] ["1"]%string [] [1]); [reflexivity|constructor|constructor; [group [1]|constructor]|cbn; lia|intros [r H]; discriminate].
      * given 192 128 (0xff02 * 2 ^ 112 + 0x16). ordinary. apply (vt_ipv6_short 16 ["ff02"]%string ["16"]%string [0xff02] [0x16]); [reflexivity|constructor; [group [15; 15; 0; 2]|constructor]|constructor; [group [1; 6]|constructor]|cbn; lia|intros [r H]; discriminate].
    + apply (fm_mld [("type", "143"); ("ng", "1")]%string). reflexivity.
    + intros fld s [H|[H|[]]]; injection H as <- <-.
      * given 0 8 143. ordinary. apply vt_number; [lia|num 10 "143" [1; 4; 3]|lia].
      * given 48 16 1. ordinary. apply vt_number; [lia|num 10 "1" [1]|lia].
    + apply (fm_raw _ ([4; 0; 0; 0] ++ repeat 0 16)). apply (rb_data [Hex "04000000" [4; 0; 0; 0]; Pattern Zeroes "16" 16]).
    + split; [discriminate|]. constructor; [|constructor; [|constructor]].
      * split; [|discriminate]. apply (hd_byte _ _ 0 4); [reflexivity|reflexivity|]. do 3 (apply (hd_byte _ _ 0 0); [reflexivity|reflexivity|]). constructor.
      * split; [num 10 "16" [1; 6]|lia].
  - intros [|[|[|[|k]]]] asg m H; try discriminate H; [|destruct k; discriminate H]. intros _. exists 1%nat. split; [reflexivity|split; reflexivity].
  - intros [|[|[|[|k]]]] asg m ps m' H; try discriminate H. destruct k; discriminate H.
Qed.

Example C82_mld_bytes : exists b, spelled C82_mld b /\
  b = [0; 0; 0; 0; 0; 2; 0; 0; 0; 0; 0; 1; 0x86; 0xdd; 0x60; 0; 0; 0; 0; 28; 0; 31] ++ repeat 0 15 ++ [1; 255; 2] ++ repeat 0 13 ++ [22; 143; 0; 0x6d; 0x8e; 0; 0; 0; 1; 4] ++ repeat 0 19.
Proof.
  destruct C82_mld_case as [H1 [H2 [H3 [H4 H5]]]]. destruct (C82_bytes C82_mld H1 H2 H3) as [f [f' [b [_ [_ [_ HF]]]]]]; [rewrite H4; cbn; lia|rewrite H5; lia|].
  exists b. split; [exact HF|]. apply (C82_printed C82_mld (MkEnv (fun _ => true) [])) in HF; auto; [|discriminate|rewrite H4; cbn; lia|rewrite H5; lia].
  rewrite H4 in HF. vm_compute in HF. injection HF as <-. vm_compute. reflexivity.
Qed.
