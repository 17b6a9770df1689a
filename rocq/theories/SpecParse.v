(** Vocabulary for the parsing of frames. *)

From Verif Require Import Fill Frame.
From Verif Require Export SpecText.

(** A hexadecimal or binary literal with more digits than fit into [k] bytes. *)
Definition too_long (s : string) (k : Z) : Prop :=
  (exists body ds, s = ("0x" ++ body)%string /\ digits_of 16 body ds /\ 2 * k < Z.of_nat (length ds)) \/
  (exists body ds, s = ("0b" ++ body)%string /\ digits_of 2 body ds /\ 8 * k < Z.of_nat (length ds)).

(** A field of more than 64 bits is given a literal that is too long for it. *)
Definition overlong_word (ws : list string) : Prop :=
  exists t f A v B, In t hdr_tmpls /\ In f (h_fields t) /\ ws = A ++ f_name f :: v :: B /\ In (h_name t) A /\
    64 < f_width f /\ too_long v ((f_width f + 7) / 8).

(** "par" of a coap-parms header is followed by words that are no data. *)
Definition missing_parameter (ws : list string) : Prop :=
  exists A B n, ws = A ++ "par"%string :: B /\ In "coap-parms"%string A /\ parse_var_bytes B = Ret (n, None).


(** The user gave a (usable) value for field [n]. *)
Definition given (h : hdr) (n : string) : bool :=
  match find_field h n with Some f => is_some (f_val f) | None => false end.

(** All but two kinds: an SV frame with a "tlv0_..." value and no "tlv2_..." value,
    and an MLD message with values of a query and values of a report. *)
Definition regular (h : hdr) : bool :=
  match h_fill h with
  | FL_sv => existsb (given h) ["tlv2_type"; "tlv2_len"; "tlv2_mac"] || negb (existsb (given h) ["tlv0_type"; "tlv0_len"])
  | FL_mld => negb (existsb (given h) ["qresv"; "s"; "qrv"; "qqic"; "ns"] && existsb (given h) ["rresv"; "ng"])
  | _ => true
  end.


(** ** Assignments "name value" (C35, C54) *)

Definition ignore_word (v : string) : Prop := v = "ign"%string \/ v = "ignore"%string.

(** How the text [v] is read for a field of [k] bytes: [None] when it is no valid
    text.  (Fields of variable size, which move other fields, are left out.) *)
Definition field_text (p : field_parser) (v : string) (k : Z) : out (option buf) :=
  match p with
  | FP_default => parse_bytes v k
  | FP_field_hex => parse_field_hex v k
  | FP_coap_code => Ret (coap_parse_code v)
  | FP_opc16 => opc_parse_uint16 v
  | _ => Crash Out_of_model
  end.

(** Field [f] becomes [f'] when it is given the text [v]. *)
Definition takes (f : field) (v : string) (f' : field) : Prop :=
  (ignore_word v /\ f_val f' = None /\ f_skip f' = true) \/
  (~ ignore_word v /\ field_text (f_parser f) v (Z.max 1 ((f_width f + 7) / 8)) = Ret (f_val f') /\ f_skip f' = false).

Definition same_place (f f' : field) : Prop :=
  f_name f' = f_name f /\ f_off f' = f_off f /\ f_width f' = f_width f /\ f_def f' = f_def f.

(** No field in front of position [j] of [fs] has the name [n]. *)
Definition first_named (fs : list field) (j : nat) (n : string) : Prop :=
  forall i g, (i < j)%nat -> nth_error fs i = Some g -> f_name g <> n.

(** The pair [n v] can be used as an assignment to a field of [t]: [n] names a field
    and is no keyword, and [v] can be read (it is not one of the over-long literals
    of C08).  A name that occurs twice means the first field. *)
Definition assignable (t : hdr) (n v : string) : Prop :=
  n <> "help"%string /\ ~ ignore_word n /\ v <> "help"%string /\
  exists j f, nth_error (h_fields t) j = Some f /\ f_name f = n /\ first_named (h_fields t) j n /\
    (ignore_word v \/ exists o, field_text (f_parser f) v (Z.max 1 ((f_width f + 7) / 8)) = Ret o).

(** The last value given for [n]. *)
Fixpoint last_given (asg : list (string * string)) (n : string) : option string :=
  match asg with
  | [] => None
  | (m, v) :: r =>
      match last_given r n with
      | Some v' => Some v'
      | None => if String.eqb m n then Some v else None
      end
  end.

Definition words_of (asg : list (string * string)) : list string :=
  flat_map (fun p => [fst p; snd p]) asg.

(** The words end, or go on with something that is no field of [t]. *)
Definition ends (t : hdr) (rest : list string) : Prop :=
  match rest with
  | [] => True
  | w :: _ => w <> "help"%string /\ ~ ignore_word w /\ forall f, In f (h_fields t) -> f_name f <> w
  end.

(** The fields that "field value" cannot set: (header, position of the field). *)
Definition unsettable : list (string * nat) :=
  [("ifh-la"%string, 34%nat); ("oam-ccm"%string, 13%nat); ("ptp-announce"%string, 17%nat); ("profinet-rtc"%string, 3%nat)].

(** ** CoAP codes (C32) *)
Definition char_of (x : Z) : ascii := ascii_of_N (Z.to_N x).
Definition code_text (c dd : Z) : string :=
  String (char_of (48 + c)) (String "." (String (char_of (48 + dd / 10)) (String (char_of (48 + dd mod 10)) ""))).

(** ** The words of one header (C56) *)

(** Alone, the words [seg] are accepted completely and give the header [h]. *)
Definition header_words (seg : list string) (h : hdr) : Prop :=
  exists pad mask, argc_frame seg = Ret (Some (length seg, MkFrame [h] pad mask)).
