(** Property C77: the help says what the frame is.  Vocabulary: SpecDoc.v. *)

From Verif Require Import PTextIp PTextNum Frame SpecParse Exec SpecExec SpecFill SpecLayout SpecWhole PWhole Report SpecReport SpecHelp SpecDoc PDoc PDoc2.
From Verif Require Import PropertiesExec.

(** The help can be read in one way only, and shows fields and a size for every header
    whose form is fixed. *)
Theorem C77_readable : forall n, In n (listed_headers headers_help) -> ~ In n changing ->
  (exists rs, help_rows n rs /\ rs <> []) /\ (forall rs rs', help_rows n rs -> help_rows n rs' -> rs = rs') /\ exists B, header_ends n B /\ forall B', header_ends n B' -> B' = B.
Proof. exact help_readable. Qed.
Print Assumptions C77_readable.

Theorem C77_starts : forall hs k, Forall from_help hs -> exists S, starts_at hs k S.
Proof. exact starts_exist. Qed.
Print Assumptions C77_starts.

(** A frame written from the help is the frame the help describes.  Missing: field
    v-rsv1 of header ifh-la (C77_refuted), and headers written directly behind one that
    has a field of that name (C77_ambiguous_refuted). *)
Theorem C77_bytes_partial : forall hs ps, Forall from_help hs -> unambiguous hs ps -> Forall piece_ok ps ->
  Z.of_nat (length (text hs ps)) <= 100 -> Z.of_nat (length (payload ps)) <= 134000000 ->
  exists f f' b, argc_frame (text hs ps) = Ret (Some (length (text hs ps), f)) /\ serialised (text hs ps) f f' b /\ fr_has_mask f = false /\ as_help_says hs ps b.
Proof. exact doc_frame. Qed.
Print Assumptions C77_bytes_partial.

(** The command "hex" prints it. *)
Theorem C77_printed_partial : forall hs ps e, Forall from_help hs -> unambiguous hs ps -> Forall piece_ok ps -> text hs ps <> [] ->
  Z.of_nat (length (text hs ps)) <= 100 -> Z.of_nat (length (payload ps)) <= 134000000 ->
  exists b, as_help_says hs ps b /\ argc_cmds ("hex"%string :: text hs ps) e = Ret (0, [EvHex b None]).
Proof. exact doc_printed. Qed.
Print Assumptions C77_printed_partial.

(** The other commands use it. *)
Theorem C77_command_partial : forall hs ps, Forall from_help hs -> unambiguous hs ps -> Forall piece_ok ps -> text hs ps <> [] ->
  Z.of_nat (length (text hs ps)) <= 100 -> Z.of_nat (length (payload ps)) <= 134000000 ->
  exists f b, as_help_says hs ps b /\ a_frame (text hs ps) f b None.
Proof. exact doc_command. Qed.
Print Assumptions C77_command_partial.

Ltac doc_num base body ds := exists base, body%string; split; [unfold is_radix, In; auto|split; [reflexivity|exists ds; split; [repeat constructor|reflexivity]]].

(** The help says that field v-rsv1 of header ifh-la must be 1; it is 0. *)
Theorem C77_refuted : exists b v x off w, argc_cmds ["hex"; "ifh-la"]%string (world []) = Ret (0, [EvHex b None]) /\
  documented "ifh-la" "v-rsv1" off w /\ help_announces "ifh-la" "v-rsv1" v /\ value_text ((w + 7) / 8) v x /\ number_at b off (Z.to_nat w) <> x mod 2 ^ w.
Proof.
  exists (repeat 0 60), "1"%string, 1, 135, 1. split; [vm_compute; reflexivity|]. split; [|split; [|split]].
  - apply documented_at; vm_compute; reflexivity.
  - apply announces_at; vm_compute; reflexivity.
  - apply vt_number; [lia|doc_num 10 "1" [1]|lia].
  - vm_compute. discriminate.
Qed.
Print Assumptions C77_refuted.

(** Header rtag behind header ifh-mas: the word is taken for the field rtag, and its value is
    the word that follows. *)
Theorem C77_ambiguous_refuted : exists hs n f, Forall from_help hs /\ argc_frame (text hs []) = Ret (Some (n, f)) /\ length (fr_stack f) <> length hs.
Proof.
  exists [("ifh-mas", []); ("rtag", []); ("eth", [])]%string.
  assert (HL : exists n f, argc_frame (text [("ifh-mas", []); ("rtag", []); ("eth", [])]%string []) = Ret (Some (n, f)) /\ length (fr_stack f) = 1%nat).
  { assert (K : match argc_frame (text [("ifh-mas", []); ("rtag", []); ("eth", [])]%string []) with Ret (Some (n, f)) => (length (fr_stack f) =? 1)%nat | _ => false end = true) by (vm_compute; reflexivity).
    destruct (argc_frame _) as [[[n f]|]|]; try discriminate. exists n, f. split; auto. apply Nat.eqb_eq. auto. }
  destruct HL as [n [f [HL1 HL2]]]. exists n, f. split; [|split; [exact HL1|rewrite HL2; discriminate]].
  repeat apply Forall_cons; [| | |apply Forall_nil]; (split; [apply listed_names; vm_compute; reflexivity|split; [intros HI; cbn in HI; intuition discriminate|intros fld s []]]).
Qed.
Print Assumptions C77_ambiguous_refuted.

Definition C77_headers : headers :=
  [ ("lp-jr2", [("vid", "0x123")]); ("ifh-la", [("ts", "0xffffffffff"); ("lbk-cos-nxt", "1")]); ("eth", [("et", "0x800"); ("et", "5")]) ]%string.

(** Field lbk-cos-nxt lies in field ts. *)
Example C77_case : Forall from_help C77_headers /\ unambiguous C77_headers [Pattern Counting "70" 70] /\ Forall piece_ok [Pattern Counting "70" 70] /\
  text C77_headers [Pattern Counting "70" 70] = ["lp-jr2"; "vid"; "0x123"; "ifh-la"; "ts"; "0xffffffffff"; "lbk-cos-nxt"; "1"; "eth"; "et"; "0x800"; "et"; "5"; "data"; "pattern"; "cnt"; "70"]%string /\
  documented "ifh-la" "ts" 16 40 /\ documented "ifh-la" "lbk-cos-nxt" 42 2 /\ help_announces "lp-jr2" "tpid" "0x8100".
Proof.
  assert (HD : documented "lp-jr2" "vid" 116 12 /\ documented "ifh-la" "ts" 16 40 /\ documented "ifh-la" "lbk-cos-nxt" 42 2 /\ documented "eth" "et" 96 16) by (split; [|split; [|split]]; apply documented_at; vm_compute; reflexivity).
  destruct HD as [D1 [D2 [D3 D4]]]. split; [|split; [|split; [|split; [reflexivity|split; [exact D2|split; [exact D3|apply announces_at; vm_compute; reflexivity]]]]]].
  - unfold C77_headers. repeat apply Forall_cons; [| | |constructor]; (split; [apply listed_names; vm_compute; reflexivity|split; [intros HI; cbn in HI; intuition discriminate|]]); cbn [fst snd].
    + intros fld s [H|[]]; injection H as <- <-. exists 116, 12, 0x123. split; [exact D1|]. apply m_value; [cbn; intuition discriminate|]. apply vt_number; [lia|doc_num 16 "123" [1; 2; 3]|lia].
    + intros fld s [H|[H|[]]]; injection H as <- <-.
      * exists 16, 40, 0xffffffffff. split; [exact D2|]. apply m_value; [cbn; intuition discriminate|]. apply vt_number; [lia|doc_num 16 "ffffffffff" [15; 15; 15; 15; 15; 15; 15; 15; 15; 15]|lia].
      * exists 42, 2, 1. split; [exact D3|]. apply m_value; [cbn; intuition discriminate|]. apply vt_number; [lia|doc_num 10 "1" [1]|lia].
    + intros fld s [H|[H|[]]]; injection H as <- <-; exists 96, 16.
      * exists 0x800. split; [exact D4|]. apply m_value; [cbn; intuition discriminate|]. apply vt_number; [lia|doc_num 16 "800" [8; 0; 0]|lia].
      * exists 5. split; [exact D4|]. apply m_value; [cbn; intuition discriminate|]. apply vt_number; [lia|doc_num 10 "5" [5]|lia].
  - intros [|[|[|k]]] p w Hk Hw; cbn in Hk, Hw; try (destruct k; discriminate); apply some_inj in Hk; apply some_inj in Hw; subst p w; cbn [fst]; apply not_documented; vm_compute; reflexivity.
  - constructor; [|constructor]. split; [doc_num 10 "70" [7; 0]|lia].
Qed.
