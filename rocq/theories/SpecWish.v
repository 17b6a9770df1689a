(** Expectations written in words, with ignored fields (C83): the frames of SpecForm.v,
    where the value of a field may be the word "ign" or "ignore", and such a word may
    follow directly behind the name of a header, for all its fields. *)

From Verif Require Import Frame SpecParse.
From Verif Require Export SpecForm.

Definition asks_ignore (s : string) : bool := existsb (String.eqb s) ["ign"; "ignore"]%string.

(** A part, its form, and the word for all fields, if it is there.  The assignments of
    the part may have one of the two words in place of a text. *)
Definition wish : Type := part * format * option string.

Definition wish_words (x : wish) : list string :=
  match x with
  | (Header n asg, _, Some w) => n :: w :: words_of asg
  | (p, _, _) => part_words p
  end.
Definition asked (ws : list wish) : list string := flat_map wish_words ws.

(** The last word of a field decides whether it is ignored; without one, the word for
    all fields does.  Unnamed bits follow the latter. *)
Definition left_out (asg : list (string * string)) (all : option string) (fld : string) : bool :=
  match last_given asg fld with
  | Some s => asks_ignore s
  | None => match all with Some _ => true | None => false end
  end.

(** The texts given to the fields that are not ignored ... *)
Definition kept (asg : list (string * string)) : list (string * string) :=
  filter (fun a => negb (asks_ignore (snd a)) && negb (left_out asg None (fst a))) asg.

(** ... and the frame the expectation describes: an ignored field is one nobody gives. *)
Definition plain (x : wish) : item :=
  match x with
  | (Header n asg, m, _) => (Header n (kept asg), m)
  | (p, m, _) => (p, m)
  end.

(** Every value is a text for its field or one of the two words.  A field that changes
    the size of its header is not both given and ignored. *)
Definition well_wished (x : wish) : Prop :=
  well_put (plain x) /\
  match x with
  | (Header n asg, m, all) =>
      (forall w, all = Some w -> asks_ignore w = true) /\
      forall fld s, In (fld, s) asg -> ~ In fld ["-"; "ignore"]%string /\ exists off w, place m fld = Some (off, w) /\
        (asks_ignore s = true \/ exists x, stands_for n fld w s x) /\
        (In (n, fld) [("coap", "token"); ("profinet-rtc", "data")]%string -> asks_ignore s = true -> forall s', In (fld, s') asg -> asks_ignore s' = true)
  | (_, _, all) => all = None
  end.

(** The limits are those of C82. *)
Definition well_asked (ws : list wish) : Prop :=
  ws <> [] /\ Forall well_wished ws /\ addressed (map plain ws) /\ separate (map plain ws) /\ (length (asked ws) <= 100)%nat /\ total (map plain ws) <= 8 * 130000.

(** Bit [i] of the frame lies in a field that is ignored. *)
Definition disregarded (ws : list wish) (i : Z) : Prop :=
  exists k n asg m all fld off w, nth_error ws k = Some (Header n asg, m, all) /\ place m fld = Some (off, w) /\ left_out asg all fld = true /\
    total (firstn k (map plain ws)) + off <= i < total (firstn k (map plain ws)) + off + w.

(** The short supervision frame has a mask of its own (C66). *)
Definition sv_full (ws : list wish) : Prop := forall asg m all, In (Header "sv" asg, m, all) ws -> redbox (kept asg) = true.

(** The program can build the mask (C67): an igmp, mld or sv header takes its room for all
    the fields of its name, whether the message has them or not, and this many bytes must
    be left to the end of the frame, filling included. *)
Definition room_for (n : string) : Z :=
  if String.eqb n "igmp" then 14 else if String.eqb n "mld" then 30 else if String.eqb n "sv" then 22 else 0.
Definition roomy (ws : list wish) : Prop :=
  forall k n asg m all, nth_error ws k = Some (Header n asg, m, all) -> begins (map plain ws) k + room_for n <= Z.max 60 (total (map plain ws) / 8).
Definition maskable (ws : list wish) : Prop := sv_full ws /\ roomy ws.
