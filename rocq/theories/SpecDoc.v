(** The help as the description of the frames (C77): what "help" behind the name of a
    header shows, and the frames that agree with it. *)

From Verif Require Import Report SpecFrame.
From Verif Require Export SpecHelp SpecWhole SpecExact.

(** The lines about the fields of header [n]. *)
Definition field_lines (text : string) : list string := filter (fun l => negb (is_some (after "   " l))) (skipn 4 (lines text)).
Definition help_lines (n : string) (ls : list string) : Prop :=
  exists s, argc_frame_says [n; "help"%string] = Ret (None, s) /\ ls = field_lines s.

(** They show the names, the offsets and the widths [rs]. *)
Definition help_rows (n : string) (rs : list (string * Z * Z)) : Prop :=
  exists ls, help_lines n ls /\ Forall2 (fun l r => field_row l = (fst (fst r), decimal (snd (fst r)), decimal (snd r)) /\ 0 <= snd (fst r) /\ 0 <= snd r) ls rs.

(** The (first) field of that name. *)
Definition documented (n fld : string) (off w : Z) : Prop :=
  exists rs, help_rows n rs /\ find (fun r => String.eqb fld (fst (fst r))) rs = Some (fld, off, w).

(** The header has [B] bits: the end of the field that ends last. *)
Definition header_ends (n : string) (B : Z) : Prop :=
  exists rs, help_rows n rs /\ (exists r, In r rs /\ snd (fst r) + snd r = B) /\ forall r, In r rs -> snd (fst r) + snd r <= B.

(** The text of a field says what it is if the user does not give it. *)
Fixpoint behind (p s : string) : option string :=
  match after p s with
  | Some r => Some r
  | None => match s with EmptyString => None | String _ r => behind p r end
  end.
Fixpoint word (s : string) : string :=
  match s with
  | EmptyString => EmptyString
  | String c r => if Ascii.eqb c space || Ascii.eqb c ","%char then EmptyString else String c (word r)
  end.
Definition announced (line : string) : option string :=
  match behind "Defaults to " line with
  | Some r => Some (word r)
  | None => match behind "Must be " line with Some r => Some (word r) | None => None end
  end.
Definition help_announces (n fld v : string) : Prop :=
  exists ls l, help_lines n ls /\ find (fun l => String.eqb fld (fst (fst (field_row l)))) ls = Some l /\ announced l = Some v.

(** The headers whose form depends on what is given in them, and payload and padding. *)
Definition changing : list string := ["igmp"; "mld"; "sv"; "profinet-rtc"; "coap"; "coap-opt"; "coap-parms"; "data"; "padding"]%string.

(** The frame headers of Microchip switches. *)
Definition switch_headers : list string :=
  ["sp-oc1"; "lp-oc1"; "ifh-oc1"; "efh-oc1"; "sp-jr2"; "lp-jr2"; "ifh-jr2"; "ifh-fa"; "ifh-crcl"; "efh-crcl"; "ifh-mas"; "ifh-la"]%string.

(** A header that "help" lists, with assignments to fields that its help shows. *)
Definition from_help (p : string * list (string * string)) : Prop :=
  In (fst p) (listed_headers headers_help) /\ ~ In (fst p) changing /\
  forall fld s, In (fld, s) (snd p) -> exists off w x, documented (fst p) fld off w /\ means (fst p) fld w s x.

(** No header is written directly behind one that has a field of the same name. *)
Definition unambiguous (hs : headers) (ps : list piece) : Prop :=
  forall k p w, nth_error hs k = Some p -> nth_error (header_names hs ps) (S k) = Some w -> ~ exists off wd, documented (fst p) w off wd.

(** Header [k] starts at bit [S]. *)
Definition starts_at (hs : headers) (k : nat) (S : Z) : Prop :=
  exists Bs, Forall2 (fun p B => header_ends (fst p) B) (firstn k hs) Bs /\ S = fold_right Z.add 0 Bs.

Definition is_given (p : string * list (string * string)) (fld : string) : Prop := last_given (snd p) fld <> None.
Definition share_a_bit (off w off' w' : Z) : Prop := off < off' + w' /\ off' < off + w.

(** No other field that shares a bit with it is given. *)
Definition undisturbed (p : string * list (string * string)) (fld : string) (off w : Z) : Prop :=
  forall fld' off' w', fld' <> fld -> documented (fst p) fld' off' w' -> share_a_bit off w off' w' -> ~ is_given p fld'.

(** The frame [b] with the headers [hs] and the payload [ps] is as the help says. *)
Record as_help_says (hs : headers) (ps : list piece) (b : list Z) : Prop := MkAsHelp {
  (** its size *)
  ah_size : forall S, starts_at hs (length hs) S -> Z.of_nat (length b) = Z.max 60 (S / 8 + Z.of_nat (length (payload ps)));
  ah_bytes : Forall is_byte b;
  (** a field that is given *)
  ah_given : forall k p S fld off w s x, nth_error hs k = Some p -> starts_at hs k S -> documented (fst p) fld off w -> undisturbed p fld off w ->
    last_given (snd p) fld = Some s -> means (fst p) fld w s x -> number_at b (S + off) (Z.to_nat w) = x mod 2 ^ w;
  (** fields that share bits: each bit is that of the last field in the help that is given *)
  ah_shared : forall k p S rs r s x i, nth_error hs k = Some p -> starts_at hs k S -> help_rows (fst p) rs ->
    find (fun q => (snd (fst q) <=? i) && (i <? snd (fst q) + snd q) && is_some (last_given (snd p) (fst (fst q)))) (rev rs) = Some r ->
    documented (fst p) (fst (fst r)) (snd (fst r)) (snd r) ->
    last_given (snd p) (fst (fst r)) = Some s -> means (fst p) (fst (fst r)) (snd r) s x ->
    number_at b (S + i) 1 = Z.b2z (Z.testbit x (snd (fst r) + snd r - 1 - i));
  (** a field that is not given *)
  ah_announced : forall k p S fld off w v x, nth_error hs k = Some p -> starts_at hs k S -> documented (fst p) fld off w -> undisturbed p fld off w ->
    last_given (snd p) fld = None -> help_announces (fst p) fld v -> value_text ((w + 7) / 8) v x -> (fst p, fld) <> ("ifh-la", "v-rsv1")%string ->
    number_at b (S + off) (Z.to_nat w) = x mod 2 ^ w;
  ah_zero : forall k p S fld off w, nth_error hs k = Some p -> starts_at hs k S -> documented (fst p) fld off w -> undisturbed p fld off w ->
    last_given (snd p) fld = None -> In (fst p) switch_headers -> (forall v x, help_announces (fst p) fld v -> ~ value_text ((w + 7) / 8) v x) ->
    number_at b (S + off) (Z.to_nat w) = 0;
  (** payload and padding *)
  ah_payload : forall S, starts_at hs (length hs) S -> slice b (Z.to_nat (S / 8)) (length (payload ps)) = payload ps;
  ah_rest : forall S i, starts_at hs (length hs) S -> (Z.to_nat (S / 8) + length (payload ps) <= i)%nat -> nth i b 0 = 0 }.
