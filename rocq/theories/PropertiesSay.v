(** Property C78: from the command line to the line that is printed.  Vocabulary:
    SpecSay.v (command line), SpecExact.v (frame), SpecDoc.v (help), SpecReport.v. *)

From Verif Require Import PTextIp PTextNum Frame SpecParse Exec SpecExec SpecFill SpecLayout SpecWhole SpecExact Report SpecReport SpecHelp SpecDoc SpecSay PSay.
From Verif Require Import PropertiesExec PropertiesWhole PropertiesDoc.
Local Open Scope string_scope.

(** The program prints the frame that the words determine (C71), two digits for each byte,
    one line, and nothing else; the status is 0. *)
Theorem C78_line : forall version args e hs ps, operands args ("hex" :: text hs ps) ->
  Forall well_written hs -> Forall piece_ok ps -> text hs ps <> [] -> (Z.of_nat (length (text hs ps)) <= 100)%Z -> (Z.of_nat (length (payload ps)) <= 110000)%Z ->
  exists b s, the_frame hs ps b /\ hex_text b s /\ main_says version args e = Ret (0%Z, s ++ String newline "", "").
Proof. exact frame_line. Qed.
Print Assumptions C78_line.

(** So it does with all headers of the help whose form is fixed.  Missing: see C77. *)
Theorem C78_help_partial : forall version args e hs ps, operands args ("hex" :: text hs ps) ->
  Forall from_help hs -> unambiguous hs ps -> Forall piece_ok ps -> text hs ps <> [] -> (Z.of_nat (length (text hs ps)) <= 100)%Z -> (Z.of_nat (length (payload ps)) <= 134000000)%Z ->
  exists b s, as_help_says hs ps b /\ hex_text b s /\ main_says version args e = Ret (0%Z, s ++ String newline "", "").
Proof. exact help_line. Qed.
Print Assumptions C78_help_partial.

(** What was printed, given as data, is printed again. *)
Theorem C78_again : forall version args args' e e' hs ps s, operands args ("hex" :: text hs ps) -> operands args' ["hex"; "data"; "hex"; s] ->
  Forall well_written hs -> Forall piece_ok ps -> text hs ps <> [] -> (Z.of_nat (length (text hs ps)) <= 100)%Z -> (Z.of_nat (length (payload ps)) <= 90000)%Z ->
  main_says version args e = Ret (0%Z, s ++ String newline "", "") -> main_says version args' e' = Ret (0%Z, s ++ String newline "", "").
Proof. exact line_again. Qed.
Print Assumptions C78_again.

(** A text that begins with a dash is taken for an option, unless "--" stands before it. *)
Theorem C78_dash_refuted : forall version e, exists hs ps, Forall well_written hs /\ Forall piece_ok ps /\
  main_says version ("hex" :: text hs ps) e = Ret (0%Z, "ef version: " ++ version ++ String newline "", "").
Proof. intros version e. exists [], [Ascii_ "-v"]. split; [constructor|]. split; [repeat constructor|reflexivity]. Qed.
Print Assumptions C78_dash_refuted.

(** The frame of C71 and the one of C77, with options between the words. *)
Example C78_case : operands ("hex" :: "eth" :: "-t" :: "20" :: "--" :: tl (text C65_headers C65_payload)) ("hex" :: text C65_headers C65_payload) /\
  operands ("-t5" :: "hex" :: text C77_headers [Pattern Counting "70" 70]) ("hex" :: text C77_headers [Pattern Counting "70" 70]) /\
  let s := "0000000000020000000000078100e005080045000064000000001f119189000000000a000001000000050050899cc0de000102030405060708090a0b0c0d0e0f101112131415161718191a1b1c1d1e1f202122232425262728292a2b2c2d2e2f303132333435363738393a3b3c3d3e3f404142434445" in
    main_says "" ("hex" :: "eth" :: "-t" :: "20" :: "--" :: tl (text C65_headers C65_payload)) (world []) = Ret (0%Z, s ++ String newline "", "") /\
    operands ["hex"; "data"; "hex"; s] ["hex"; "data"; "hex"; s].
Proof.
  split; [|split].
  - exists [Operand "hex"; Operand "eth"; Time "20"], ("--" :: tl (text C65_headers C65_payload)). split; [repeat constructor; discriminate|]. split; [reflexivity|]. right. eexists. split; reflexivity.
  - exists (Time1 "5" :: map Operand ("hex" :: text C77_headers [Pattern Counting "70" 70])), []. split; [repeat constructor; cbn; discriminate|]. split; [reflexivity|]. left. split; reflexivity.
  - intros s. split; [vm_compute; reflexivity|].
    exists (map Operand ["hex"; "data"; "hex"; s]), []. split; [repeat constructor; cbn; discriminate|]. split; [reflexivity|]. left. split; reflexivity.
Qed.
