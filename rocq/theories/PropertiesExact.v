(** Property C71: the words determine every bit of the frame.  Vocabulary: SpecExact.v. *)

From Verif Require Import Frame SpecParse Exec SpecExec SpecFill SpecLayout SpecWhole SpecExact PExact PropertiesWhole.

(** At most one byte string is the frame. *)
Theorem C71_unique : forall hs ps b b', Forall well_written hs -> the_frame hs ps b -> the_frame hs ps b' -> b = b'.
Proof. exact two_same. Qed.
Print Assumptions C71_unique.

(** It is the one the program makes of the words.  The limit on the payload is that
    of C23: above 131072 bytes the sum of a checksum wraps around. *)
Theorem C71_bytes : forall hs ps, Forall well_written hs -> Forall piece_ok ps ->
  Z.of_nat (length (text hs ps)) <= 100 -> Z.of_nat (length (payload ps)) <= 110000 ->
  exists f f' b, argc_frame (text hs ps) = Ret (Some (length (text hs ps), f)) /\ serialised (text hs ps) f f' b /\ fr_has_mask f = false /\
    the_frame hs ps b.
Proof. exact exact_whole. Qed.
Print Assumptions C71_bytes.

(** The command "hex" prints it ... *)
Theorem C71_printed : forall hs ps e b, Forall well_written hs -> Forall piece_ok ps -> text hs ps <> [] ->
  Z.of_nat (length (text hs ps)) <= 100 -> Z.of_nat (length (payload ps)) <= 110000 ->
  (the_frame hs ps b <-> argc_cmds ("hex"%string :: text hs ps) e = Ret (0, [EvHex b None])).
Proof. exact exact_printed. Qed.
Print Assumptions C71_printed.

(** ... and in every other command (C58) the words stand for it. *)
Theorem C71_command : forall hs ps b, Forall well_written hs -> Forall piece_ok ps -> text hs ps <> [] ->
  Z.of_nat (length (text hs ps)) <= 100 -> Z.of_nat (length (payload ps)) <= 110000 ->
  (the_frame hs ps b <-> exists f, a_frame (text hs ps) f b None).
Proof. exact exact_command. Qed.
Print Assumptions C71_command.

(** The headers of C65: the lengths, the types and both checksums are worked out. *)
Example C71_case : exists b, the_frame C65_headers C65_payload b /\
  b = [0; 0; 0; 0; 0; 2; 0; 0; 0; 0; 0; 7; 0x81; 0; 0xe0; 5; 8; 0; 0x45; 0; 0; 100; 0; 0; 0; 0; 31; 17; 0x91; 0x89; 0; 0; 0; 0; 10; 0; 0; 1;
       0; 0; 0; 5; 0; 80; 0x89; 0x9c; 0xc0; 0xde] ++ map Z.of_nat (seq 0 70) /\
  not_given C65_headers C65_payload b 2 "ipv4" "len" = 100 /\ not_given C65_headers C65_payload b 1 "ctag" "et" = 0x0800 /\
  not_given C65_headers C65_payload b 2 "ipv4" "proto" = 17 /\ not_given C65_headers C65_payload b 3 "udp" "chksum" = 0x899c.
Proof.
  destruct C65_case as [H1 [H2 [H3 _]]].
  assert (HT : text C65_headers C65_payload <> []) by (rewrite H3; discriminate).
  assert (HL : Z.of_nat (length (text C65_headers C65_payload)) <= 100) by (rewrite H3; cbn; lia).
  assert (HP : Z.of_nat (length (payload C65_payload)) <= 110000) by (vm_compute; discriminate).
  destruct (C71_bytes C65_headers C65_payload H1 H2 HL HP) as [f [f' [b [_ [_ [_ HF]]]]]]. exists b. split; [exact HF|].
  apply (C71_printed C65_headers C65_payload (MkEnv (fun _ => true) []) b H1 H2 HT HL HP) in HF. rewrite H3 in HF. vm_compute in HF. injection HF as <-. vm_compute. auto 10.
Qed.
