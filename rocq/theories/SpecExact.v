(** The frame that words stand for, bit for bit (C71): as in SpecWhole.v, and the
    fields that nobody gives are what the program works out. *)

From Verif Require Import Frame SpecParse.
From Verif Require Export SpecWhole.

(** The headers by name; a payload counts as a header. *)
Definition header_names (hs : headers) (ps : list piece) : list string :=
  (map fst hs ++ match ps with [] => [] | _ => ["data"%string] end)%list.

(** The byte header [k] starts at, and the byte the payload ends before. *)
Definition starts (hs : headers) (k : nat) : Z := bits_of (firstn k hs) / 8.
Definition ends (hs : headers) (ps : list piece) : Z := bits_of hs / 8 + Z.of_nat (length (payload ps)).

(** The bytes from there to the end of the payload, and their number. *)
Definition bytes_left (hs : headers) (ps : list piece) (k : nat) : Z := ends hs ps - starts hs k.
Definition from_header (hs : headers) (ps : list piece) (b : list Z) (k : nat) : list Z :=
  slice b (Z.to_nat (starts hs k)) (Z.to_nat (bytes_left hs ps k)).

Definition says (hs : headers) (k : nat) (fld : string) : bool :=
  match nth_error hs k with
  | Some p => match last_given (snd p) fld with Some _ => true | None => false end
  | None => false
  end.

(** *** Lengths and types *)
Definition length_field (n fld : string) : option Z :=
  match find (fun q => String.eqb (fst q) n && String.eqb (fst (fst (snd q))) fld) length_fields with
  | Some q => Some (snd (snd q))
  | None => None
  end.

Definition type_field (n fld : string) : option (Z * Z) :=
  match find (fun q => String.eqb (fst q) n && String.eqb (fst (fst (fst (snd q)))) fld) type_fields with
  | Some q => Some (snd (fst (snd q)), snd (snd q))
  | None => None
  end.

(** The number of the header after header [k], which is called [n]; [d] if there is
    none. *)
Definition next_header (hs : headers) (ps : list piece) (k : nat) (n : string) (d : Z) : Z :=
  match nth_error (header_names hs ps) (S k) with
  | Some m => if String.eqb n "ipv6" && String.eqb m "icmp" && negb (says hs (S k) "chksum") then 58 else type_number m
  | None => d
  end.

(** *** Checksums *)

(** The pseudo header for header [k], if an IP header is directly before it. *)
Definition pseudo (hs : headers) (ps : list piece) (b : list Z) (k : nat) (proto : Z) : option (list Z) :=
  match k with
  | O => None
  | S j =>
      match nth_error hs j with
      | Some p =>
          if String.eqb (fst p) "ipv4" then Some (pseudo_header4 b (Z.to_nat (starts hs j)) proto (bytes_left hs ps k mod 65536))
          else if String.eqb (fst p) "ipv6" then Some (pseudo_header6 b (Z.to_nat (starts hs j)) proto (bytes_left hs ps k))
          else None
      | None => None
      end
  end.

Definition after_ipv6 (hs : headers) (k : nat) : bool :=
  match k with
  | O => false
  | S j => match nth_error hs j with Some p => String.eqb (fst p) "ipv6" | None => false end
  end.

(** What the checksum of header [k], called [n], is taken over, itself being zero:
    RFC 791, RFC 768, RFC 793, RFC 792 and RFC 4443. *)
Definition covered (hs : headers) (ps : list piece) (b : list Z) (k : nat) (n : string) : option (list Z) :=
  if String.eqb n "ipv4" then Some (blank 10 (slice b (Z.to_nat (starts hs k)) 20))
  else if String.eqb n "udp" then option_map (fun P => P ++ blank 6 (from_header hs ps b k)) (pseudo hs ps b k 17)
  else if String.eqb n "tcp" then option_map (fun P => P ++ blank 16 (from_header hs ps b k)) (pseudo hs ps b k 6)
  else if String.eqb n "icmp" then
    if after_ipv6 hs k then option_map (fun P => P ++ blank 2 (from_header hs ps b k)) (pseudo hs ps b k 58)
    else Some (blank 2 (from_header hs ps b k))
  else None.

(** *** The value of field [fld] of header [k], called [n], when it is not given *)
Definition not_given (hs : headers) (ps : list piece) (b : list Z) (k : nat) (n fld : string) : Z :=
  match length_field n fld with
  | Some uncounted => (bytes_left hs ps k - uncounted) mod 65536
  | None =>
      match type_field n fld with
      | Some (w, d) => next_header hs ps k n d mod 2 ^ w
      | None =>
          if String.eqb fld "chksum" then
            match covered hs ps b k n with Some d => positional 256 (once d) | None => 0 end
          else preset_value n fld
      end
  end.

(** [b] is the frame: [frame_is], and every field without a value has the one above;
    bits without a name are zero ("-" has no preset). *)
Definition the_frame (hs : headers) (ps : list piece) (b : list Z) : Prop :=
  frame_is hs ps b /\
  forall k p m fld off w, nth_error hs k = Some p -> format_named (fst p) m -> place m fld = Some (off, w) ->
    last_given (snd p) fld = None -> bits_at hs b k off w = not_given hs ps b k (fst p) fld.
