(** Properties C21-C31, C53, C55, C56: fields that are filled automatically. *)

From Verif Require Import PTextIp PTextHex Frame Fill PSer PImage SpecSum PSum PEmit SpecFill PCheck PCheck2 PLen PKeep PTwice PCoap PSegs PWords.

(** For the examples: the frame given by words and its bytes. *)
Definition serialise (ws : list string) : option (frame * frame * list Z) :=
  match argc_frame ws with
  | Ret (Some (_, f)) =>
      match frame_to_buf f with
      | Ret (f', b) => if forallb regular (fr_stack f) then Some (f, f', b) else None
      | _ => None
      end
  | _ => None
  end.

Lemma serialise_ok : forall ws f f' b, serialise ws = Some (f, f', b) -> serialised ws f f' b.
Proof.
  unfold serialise. intros ws f f' b H. destruct (argc_frame ws) as [[[n f1]|]|] eqn:E; try discriminate.
  destruct (frame_to_buf f1) as [[f2 b2]|] eqn:E2; try discriminate. destruct (forallb regular (fr_stack f1)) eqn:E3; [|discriminate].
  assert (f1 = f) by congruence. assert (f2 = f') by congruence. assert (b2 = b) by congruence. subst.
  split; [exists n; auto|]. split; [|auto]. apply Forall_forall. rewrite forallb_forall in E3. auto.
Qed.

Ltac ser := apply serialise_ok; vm_compute; reflexivity.
Ltac nam := eexists; split; [reflexivity|vm_compute; reflexivity].
Ltac never := let H := fresh in intro H; vm_compute in H; discriminate H.

(** ** Checksums *)

(** C21.  Full claim: the completed data verify.  They do exactly when folding the
    32 bit sum once leaves no carry: the program folds only once. *)
Theorem C21_checksum_partial : forall pre post, Nat.Even (length pre) -> bytes_ok pre -> bytes_ok post ->
  Z.of_nat (length (pre ++ [0; 0] ++ post)) < 131072 ->
  let data := pre ++ [0; 0] ++ post in
  two_bytes (inet_chksum 0 data) = once data /\
  0 <= inet_chksum 0 data <= 65535 /\
  (verifies (pre ++ two_bytes (inet_chksum 0 data) ++ post) <-> no_second_carry data).
Proof. exact checksum_both. Qed.
Print Assumptions C21_checksum_partial.

Example C21_case : no_second_carry [69; 0; 0; 84; 0; 0; 64; 0; 64; 1; 0; 0; 10; 0; 0; 1; 10; 0; 0; 2] /\
  inet_chksum 0 [69; 0; 0; 84; 0; 0; 64; 0; 64; 1; 0; 0; 10; 0; 0; 1; 10; 0; 0; 2] = 9895.
Proof. vm_compute. auto. Qed.

Theorem C21_refuted : exists pre post, Nat.Even (length pre) /\ bytes_ok pre /\ bytes_ok post /\
  ~ verifies (pre ++ two_bytes (inet_chksum 0 (pre ++ [0; 0] ++ post)) ++ post).
Proof.
  exists [255; 255; 255; 255], [1; 0]. split; [exists 2%nat; reflexivity|]. split; [repeat constructor; lia|]. split; [repeat constructor; lia|never].
Qed.
Print Assumptions C21_refuted.

(** C22.  The same for every emitted IPv4 header. *)
Theorem C22_ipv4_partial : forall ws f f' b k, serialised ws f f' b -> named f k "ipv4" -> user_gave f k "chksum" = false ->
  let m := slice b (at_byte f' k) 20 in slice m 10 2 = once (blank 10 m) /\ (verifies m <-> no_second_carry (blank 10 m)).
Proof. exact ipv4_checksum. Qed.
Print Assumptions C22_ipv4_partial.

Example C22_case : exists f f' b, serialised ["eth"; "ipv4"; "sip"; "10.0.0.1"; "dip"; "10.0.0.2"; "udp"] f f' b /\ named f 1 "ipv4" /\
  user_gave f 1 "chksum" = false /\ no_second_carry (blank 10 (slice b (at_byte f' 1) 20)).
Proof. do 3 eexists. split; [ser|]. split; [nam|]. split; [reflexivity|vm_compute; reflexivity]. Qed.

Theorem C22_refuted : exists ws f f' b k, serialised ws f f' b /\ named f k "ipv4" /\ user_gave f k "chksum" = false /\
  ~ verifies (slice b (at_byte f' k) 20).
Proof.
  exists ["eth"; "ipv4"; "id"; "0x9bd8"; "sip"; "255.255.0.0"; "dip"; "0.0.1.2"]%string. do 3 eexists. exists 1%nat.
  split; [ser|]. split; [nam|]. split; [reflexivity|never].
Qed.
Print Assumptions C22_refuted.

(** C23.  UDP and TCP directly after an IP header: the receiver's sum over the
    pseudo header and the emitted bytes. *)
Theorem C23_transport_partial : forall ws f f' b k ip n x off, serialised ws f f' b -> named f k ip -> named f (S k) n -> transport n x off ->
  (ip = "ipv4"%string \/ ip = "ipv6"%string) -> user_gave f (S k) "chksum" = false -> Z.of_nat (length b) < 131000 ->
  let m := message f' b (S k) in
  let P := if String.eqb ip "ipv4" then pseudo_header4 b (at_byte f' k) x (bytes_from f' (S k) mod 65536)
           else pseudo_header6 b (at_byte f' k) x (bytes_from f' (S k)) in
  slice m off 2 = once (P ++ blank off m) /\ (verifies (P ++ m) <-> no_second_carry (P ++ blank off m)).
Proof. exact transport_checksum. Qed.
Print Assumptions C23_transport_partial.

Example C23_case : exists f f' b, serialised ["eth"; "ipv6"; "sip"; "::1"; "dip"; "::2"; "tcp"; "dport"; "80"; "data"; "ascii"; "hello"] f f' b /\
  named f 1 "ipv6" /\ named f 2 "tcp" /\ transport "tcp" 6 16 /\ user_gave f 2 "chksum" = false /\ Z.of_nat (length b) < 131000 /\
  no_second_carry (pseudo_header6 b (at_byte f' 1) 6 (bytes_from f' 2) ++ blank 16 (message f' b 2)).
Proof. do 3 eexists. split; [ser|]. split; [nam|]. split; [nam|]. split; [right; auto|]. split; [reflexivity|]. vm_compute. auto. Qed.

Theorem C23_refuted :
  (exists ws f f' b, serialised ws f f' b /\ named f 1 "ipv4" /\ named f 2 "udp" /\ user_gave f 2 "chksum" = false /\
     ~ verifies (pseudo_header4 b (at_byte f' 1) 17 (bytes_from f' 2) ++ message f' b 2)) /\
  (exists ws f f' b, serialised ws f f' b /\ named f 1 "ipv6" /\ named f 2 "tcp" /\ user_gave f 2 "chksum" = false /\
     ~ verifies (pseudo_header6 b (at_byte f' 1) 6 (bytes_from f' 2) ++ message f' b 2)).
Proof.
  split.
  - exists ["eth"; "ipv4"; "sip"; "255.255.0.0"; "udp"; "sport"; "223"]%string. do 3 eexists. split; [ser|]. split; [nam|]. split; [nam|]. split; [reflexivity|never].
  - exists ["eth"; "ipv6"; "sip"; "::1"; "dip"; "::2"; "tcp"; "data"; "hex"; "ffffb0de"]%string. do 3 eexists. split; [ser|]. split; [nam|]. split; [nam|]. split; [reflexivity|never].
Qed.
Print Assumptions C23_refuted.

(** C24 *)
Theorem C24_icmp_partial : forall ws f f' b k, serialised ws f f' b -> named f k "icmp" -> user_gave f k "chksum" = false ->
  Z.of_nat (length b) < 131000 ->
  let m := message f' b k in
  (forall j, k = S j -> named f j "ipv6" ->
     let P := pseudo_header6 b (at_byte f' j) 58 (bytes_from f' k) in slice m 2 2 = once (P ++ blank 2 m) /\ (verifies (P ++ m) <-> no_second_carry (P ++ blank 2 m))) /\
  ((forall j, k = S j -> ~ named f j "ipv6") -> slice m 2 2 = once (blank 2 m) /\ (verifies m <-> no_second_carry (blank 2 m))).
Proof. exact icmp_checksum. Qed.
Print Assumptions C24_icmp_partial.

Theorem C24_igmp_partial : forall ws f f' b k, serialised ws f f' b -> named f k "igmp" -> user_gave f k "chksum" = false ->
  Z.of_nat (length b) < 131000 ->
  let m := message f' b k in slice m 2 2 = once (blank 2 m) /\ (verifies m <-> no_second_carry (blank 2 m)).
Proof. exact igmp_checksum. Qed.
Print Assumptions C24_igmp_partial.

Example C24_case :
  (exists f f' b, serialised ["eth"; "ipv6"; "sip"; "::1"; "dip"; "::2"; "icmp"; "data"; "hex"; "0102"] f f' b /\
     named f 1 "ipv6" /\ named f 2 "icmp" /\ user_gave f 2 "chksum" = false /\ Z.of_nat (length b) < 131000 /\
     no_second_carry (pseudo_header6 b (at_byte f' 1) 58 (bytes_from f' 2) ++ blank 2 (message f' b 2))) /\
  (exists f f' b, serialised ["eth"; "ipv4"; "igmp"; "ng"; "2"; "data"; "hex"; "0102"] f f' b /\
     named f 2 "igmp" /\ user_gave f 2 "chksum" = false /\ Z.of_nat (length b) < 131000 /\ no_second_carry (blank 2 (message f' b 2))).
Proof.
  split; do 3 eexists.
  - split; [ser|]. split; [nam|]. split; [nam|]. split; [reflexivity|]. vm_compute. auto.
  - split; [ser|]. split; [nam|]. split; [reflexivity|]. vm_compute. auto.
Qed.

Theorem C24_refuted :
  (exists ws f f' b, serialised ws f f' b /\ named f 1 "ipv4" /\ named f 2 "icmp" /\ user_gave f 2 "chksum" = false /\ ~ verifies (message f' b 2)) /\
  (exists ws f f' b, serialised ws f f' b /\ named f 1 "ipv6" /\ named f 2 "icmp" /\ user_gave f 2 "chksum" = false /\
     ~ verifies (pseudo_header6 b (at_byte f' 1) 58 (bytes_from f' 2) ++ message f' b 2)) /\
  (exists ws f f' b, serialised ws f f' b /\ named f 2 "igmp" /\ user_gave f 2 "chksum" = false /\ ~ verifies (message f' b 2)).
Proof.
  split; [|split].
  - exists ["eth"; "ipv4"; "icmp"; "type"; "1"; "data"; "hex"; "ffffffff"]%string. do 3 eexists. split; [ser|]. split; [nam|]. split; [nam|]. split; [reflexivity|never].
  - exists ["eth"; "ipv6"; "sip"; "::1"; "dip"; "::2"; "icmp"; "data"; "hex"; "ffff00b7"]%string. do 3 eexists. split; [ser|]. split; [nam|]. split; [nam|]. split; [reflexivity|never].
  - exists ["eth"; "ipv4"; "igmp"; "data"; "hex"; "ffffffff0100"]%string. do 3 eexists. split; [ser|]. split; [nam|]. split; [reflexivity|never].
Qed.
Print Assumptions C24_refuted.

(** C55.  MLD uses the first IPv6 header of the frame. *)
Theorem C55_mld_partial : forall ws f f' b k j, serialised ws f f' b -> named f k "mld" -> user_gave f k "chksum" = false ->
  Z.of_nat (length b) < 131000 ->
  (j < k)%nat -> named f j "ipv6" -> (forall i, (i < j)%nat -> ~ named f i "ipv6") ->
  let m := message f' b k in
  let P := pseudo_header6 b (at_byte f' j) 58 (bytes_from f' k) in slice m 2 2 = once (P ++ blank 2 m) /\ (verifies (P ++ m) <-> no_second_carry (P ++ blank 2 m)).
Proof. exact mld_checksum. Qed.
Print Assumptions C55_mld_partial.

Example C55_case : exists f f' b, serialised ["eth"; "ipv6"; "sip"; "::1"; "dip"; "ff02::16"; "mld"; "ng"; "1"] f f' b /\
  named f 2 "mld" /\ user_gave f 2 "chksum" = false /\ Z.of_nat (length b) < 131000 /\ named f 1 "ipv6" /\ (forall i, (i < 1)%nat -> ~ named f i "ipv6") /\
  no_second_carry (pseudo_header6 b (at_byte f' 1) 58 (bytes_from f' 2) ++ blank 2 (message f' b 2)).
Proof.
  do 3 eexists. split; [ser|]. split; [nam|]. split; [reflexivity|]. split; [vm_compute; reflexivity|]. split; [nam|]. split; [|vm_compute; reflexivity].
  intros i Hi [h [H1 H2]]. replace i with 0%nat in H1 by lia. cbn [fr_stack nth_error] in H1. apply some_inj in H1. subst h. discriminate H2.
Qed.

Theorem C55_refuted : exists ws f f' b, serialised ws f f' b /\ named f 1 "ipv6" /\ named f 2 "mld" /\ user_gave f 2 "chksum" = false /\
  ~ verifies (pseudo_header6 b (at_byte f' 1) 58 (bytes_from f' 2) ++ message f' b 2).
Proof.
  exists ["eth"; "ipv6"; "sip"; "::1"; "dip"; "ff02::16"; "mld"; "ng"; "1"; "data"; "hex"; "ffff019f"]%string. do 3 eexists.
  split; [ser|]. split; [nam|]. split; [nam|]. split; [reflexivity|never].
Qed.
Print Assumptions C55_refuted.

(** ** Lengths and types *)

(** C25 *)
Theorem C25_lengths : forall ws f f' b k n fld off sub, serialised ws f f' b -> named f k n -> In (n, (fld, off, sub)) length_fields ->
  user_gave f k fld = false -> field_at f' b k off 16 = (bytes_from f' k - sub) mod 65536.
Proof. exact lengths. Qed.
Print Assumptions C25_lengths.

Example C25_case : exists f f' b, serialised ["eth"; "ipv4"; "udp"; "data"; "pattern"; "cnt"; "100"] f f' b /\ named f 1 "ipv4" /\
  In ("ipv4", ("len", 16, 0))%string length_fields /\ user_gave f 1 "len" = false /\ bytes_from f' 1 = 128 /\ bytes_from f' 2 = 108 /\
  field_at f' b 1 16 16 = 128 /\ field_at f' b 2 32 16 = 108.
Proof. do 3 eexists. split; [ser|]. split; [nam|]. split; [left; reflexivity|]. vm_compute. auto 10. Qed.

(** C26 *)
Theorem C26_next : forall ws f f' b k n m fld off w d, serialised ws f f' b -> named f k n -> named f (S k) m ->
  In (n, (fld, off, w, d)) type_fields -> user_gave f k fld = false ->
  field_at f' b k off (Z.to_nat w) = announced f k n m mod 2 ^ w.
Proof. exact chaining_next. Qed.
Print Assumptions C26_next.

Theorem C26_last : forall ws f f' b k n fld off w d, serialised ws f f' b -> named f k n -> length (fr_stack f) = S k ->
  In (n, (fld, off, w, d)) type_fields -> user_gave f k fld = false ->
  field_at f' b k off (Z.to_nat w) = d.
Proof. exact chaining_last. Qed.
Print Assumptions C26_last.

Example C26_case : exists f f' b, serialised ["eth"; "stag"; "ctag"; "ipv6"; "icmp"; "ipv4"] f f' b /\
  named f 0 "eth" /\ named f 1 "stag" /\ named f 5 "ipv4" /\ length (fr_stack f) = 6%nat /\
  In ("eth", ("et", 96, 16, 0xaaaa))%string type_fields /\ user_gave f 0 "et" = false /\
  field_at f' b 0 96 16 = 0x88a8 /\ field_at f' b 3 48 8 = 58 /\ field_at f' b 5 72 8 = 17.
Proof. do 3 eexists. split; [ser|]. split; [nam|]. split; [nam|]. split; [nam|]. split; [reflexivity|]. split; [left; reflexivity|]. vm_compute. auto 10. Qed.

(** ** Values given by the user *)

(** C27.  The value is still that of the field ... *)
Theorem C27_kept : forall ws f f' b k h h' j fl v, serialised ws f f' b -> header_pair f f' k h h' ->
  h_name h <> "coap-opt"%string -> nth_error (h_fields h) j = Some fl -> f_val fl = Some v ->
  exists fl', nth_error (h_fields h') j = Some fl' /\ f_name fl' = f_name fl /\ f_val fl' = Some v.
Proof. exact given_kept. Qed.
Print Assumptions C27_kept.

(** ... and is emitted in its place ... *)
Theorem C27_emitted : forall ws f f' b k h h' j fl v, serialised ws f f' b -> header_pair f f' k h h' ->
  ~ In (h_name h) ["igmp"; "mld"; "coap-opt"]%string -> alone h j fl -> f_val fl = Some v ->
  number_at b (8 * start_of (fr_stack f') k + f_off fl) (Z.to_nat (f_width fl)) = positional 256 v mod 2 ^ f_width fl.
Proof. exact given_emitted. Qed.
Print Assumptions C27_emitted.

(** ... also in igmp and mld messages, where the form of the message decides which
    fields there are and where. *)
Theorem C27_groups : forall ws f f' b k h h' j fl v, serialised ws f f' b -> header_pair f f' k h h' ->
  In (h_name h) ["igmp"; "mld"]%string -> nth_error (h_fields h) j = Some fl -> f_val fl = Some v ->
  (is_report h = true -> ~ In (f_name fl) (not_in_report (h_name h))) ->
  number_at b (8 * start_of (fr_stack f') k + report_place h fl) (Z.to_nat (f_width fl)) = positional 256 v mod 2 ^ f_width fl.
Proof. exact group_emitted. Qed.
Print Assumptions C27_groups.

Example C27_case : exists f f' b h h' fl, serialised ["eth"; "et"; "0x1234"; "ipv4"; "chksum"; "7"; "igmp"; "ng"; "3"] f f' b /\
  header_pair f f' 1 h h' /\ h_name h = "ipv4"%string /\ alone h 10 fl /\ f_name fl = "chksum"%string /\ f_val fl = Some [0; 7] /\
  field_at f' b 0 96 16 = 0x1234 /\ field_at f' b 2 48 16 = 3.
Proof.
  do 6 eexists. split; [ser|]. split; [split; reflexivity|]. split; [reflexivity|]. split.
  - split; [reflexivity|]. intros i g Hi Hg. unfold overlap. cbn [f_off f_width].
    do 20 (destruct i as [|i]; [first [congruence|cbn in Hg; first [discriminate Hg|apply some_inj in Hg; subst g; cbn; lia]]|]). destruct i; discriminate Hg.
  - vm_compute. auto.
Qed.

(** C28 *)
Theorem C28_sizes : forall ws f f' b, serialised ws f f' b ->
  map h_name (fr_stack f') = map h_name (fr_stack f) /\ map h_size (fr_stack f') = map size_after (fr_stack f).
Proof. exact sizes_after. Qed.
Print Assumptions C28_sizes.

Example C28_case : exists f f' b, serialised ["eth"; "ipv4"; "igmp"; "s"; "1"; "sv"; "coap-opt"; "num"; "300"; "val"; "hex"; "0102"] f f' b /\
  map h_size (fr_stack f) = [14; 20; 16; 22; 4] /\ map h_size (fr_stack f') = [14; 20; 12; 14; 5].
Proof. do 3 eexists. split; [ser|]. vm_compute. auto. Qed.

(** C29.  Full claim: for every frame. *)
Theorem C29_twice_partial : forall ws f f' b, serialised ws f f' b -> Forall (fun h => repeatable h = true) (fr_stack f) ->
  frame_to_buf f' = Ret (f', b).
Proof. exact serialise_twice. Qed.
Print Assumptions C29_twice_partial.

Example C29_case : exists f f' b, serialised ["eth"; "ipv6"; "sip"; "::1"; "dip"; "::2"; "icmp"; "data"; "hex"; "0102"] f f' b /\
  Forall (fun h => repeatable h = true) (fr_stack f) /\ fr_stack f <> fr_stack f'.
Proof. do 3 eexists. split; [ser|]. split; [repeat constructor|]. never. Qed.

Theorem C29_refuted :
  (exists ws f f' b f2 b2, serialised ws f f' b /\ named f 2 "igmp" /\ frame_to_buf f' = Ret (f2, b2) /\ b2 <> b) /\
  (exists ws f f' b f2 b2, serialised ws f f' b /\ named f 2 "mld" /\ frame_to_buf f' = Ret (f2, b2) /\ b2 <> b) /\
  (exists ws f f' b f2 b2, serialised ws f f' b /\ named f 1 "sv" /\ frame_to_buf f' = Ret (f2, b2) /\ b2 <> b) /\
  (exists ws f f' b, serialised ws f f' b /\ named f 1 "coap-opt" /\ frame_to_buf f' = Crash OOB_read).
Proof.
  split; [|split; [|split]].
  - exists ["eth"; "ipv4"; "igmp"; "ng"; "1"; "data"; "hex"; "01"]%string. do 5 eexists. split; [ser|]. split; [nam|]. split; [vm_compute; reflexivity|never].
  - exists ["eth"; "ipv6"; "sip"; "::1"; "dip"; "::2"; "mld"; "data"; "hex"; "01"]%string. do 5 eexists. split; [ser|]. split; [nam|]. split; [vm_compute; reflexivity|never].
  - exists ["eth"; "sv"; "ipv4"]%string. do 5 eexists. split; [ser|]. split; [nam|]. split; [vm_compute; reflexivity|never].
  - exists ["eth"; "coap-opt"; "num"; "1"; "val"; "hex"; "05"]%string. do 3 eexists. split; [ser|]. split; [nam|]. vm_compute; reflexivity.
Qed.
Print Assumptions C29_refuted.

(** ** CoAP and OPC-UA *)

(** C30.  Of any frame, header [k] is an option given by its number, as a numeral of
    any base, and its value, as any sequence of pieces (C10).  The rest of the message
    after the option is the rest of the frame. *)
Theorem C30_option : forall ws f f' b k h nt d ps, serialised ws f f' b -> nth_error (fr_stack f) k = Some h ->
  header_words ("coap-opt" :: "num" :: nt :: "val" :: flat_map piece_words ps)%string h ->
  number nt d -> 0 <= d < 65536 -> ps <> [] -> Forall piece_ok ps -> Z.of_nat (length (concat (map piece_data ps))) < 65536 ->
  decode_option (message f' b k) = Some (d, option_data (concat (map piece_data ps)), message f' b (S k)).
Proof. exact option_roundtrip. Qed.
Print Assumptions C30_option.

(** However the number and the value were given. *)
Theorem C30_any_option : forall ws f f' b k h d v, serialised ws f f' b -> nth_error (fr_stack f) k = Some h -> h_name h = "coap-opt"%string ->
  value_of h "num" = Some d -> value_of h "val" = Some v -> Z.of_nat (length v) < 65536 ->
  decode_option (message f' b k) = Some (positional 256 d, v, message f' b (S k)).
Proof. exact option_decodes. Qed.
Print Assumptions C30_any_option.

Example C30_case : exists f f' b h, serialised ["eth"; "ipv4"; "udp"; "coap"; "coap-opt"; "num"; "300"; "val"; "hex"; "0102"; "pattern"; "cnt"; "20"; "data"; "hex"; "ff"] f f' b /\
  nth_error (fr_stack f) 4 = Some h /\
  header_words ("coap-opt" :: "num" :: "300" :: "val" :: ["hex"; "0102"; "pattern"; "cnt"; "20"])%string h /\
  value_of h "num" = Some [1; 44] /\ match value_of h "val" with Some v => Z.of_nat (length v) = 22 | None => False end.
Proof. do 4 eexists. split; [ser|]. split; [reflexivity|]. split; [|vm_compute; auto]. do 2 eexists. vm_compute. reflexivity. Qed.

(** C31 *)
Theorem C31_token : forall ws f f' b k h tok text, serialised ws f f' b -> nth_error (fr_stack f) k = Some h ->
  header_words ["coap"; "token"; text]%string h -> hexdump tok text -> (1 <= length tok <= 8)%nat ->
  slice b (at_byte f' k + 4) (length tok) = tok /\ field_at f' b k 4 4 = Z.of_nat (length tok).
Proof. exact token_verbatim. Qed.
Print Assumptions C31_token.

(** However it was given, with any values of the other fields; its length field may
    be given as well. *)
Theorem C31_any_token : forall ws f f' b k h tok, serialised ws f f' b -> nth_error (fr_stack f) k = Some h -> h_name h = "coap"%string ->
  value_of h "token" = Some tok ->
  (1 <= length tok <= 8)%nat /\ slice b (at_byte f' k + 4) (length tok) = tok /\
  (given h "tkl" = false -> field_at f' b k 4 4 = Z.of_nat (length tok)).
Proof. exact token_emitted. Qed.
Print Assumptions C31_any_token.

Example C31_case : exists f f' b h, serialised ["eth"; "coap"; "token"; "0a0b0c"; "data"; "hex"; "ff"] f f' b /\
  nth_error (fr_stack f) 1 = Some h /\ header_words ["coap"; "token"; "0a0b0c"] h /\ value_of h "token" = Some [10; 11; 12] /\
  field_at f' b 1 4 4 = 3.
Proof. do 4 eexists. split; [ser|]. split; [reflexivity|]. split; [do 2 eexists; vm_compute; reflexivity|]. vm_compute. auto. Qed.

(** C53 *)
Theorem C53_little_endian : forall ws f f' b k h asg fld off nt n, serialised ws f f' b -> nth_error (fr_stack f) k = Some h ->
  header_words ("opc-ua" :: words_of asg)%string h -> (forall m v, In (m, v) asg -> assignable HDR_OPC_UA m v) ->
  In (fld, off) [("pub-id", 2%nat); ("wg-id", 5%nat)]%string ->
  last_given asg fld = Some nt -> number nt n -> 0 <= n < 2 ^ 64 ->
  slice b (at_byte f' k + off) 2 = [n mod 256; n / 256 mod 256].
Proof. exact little_endian. Qed.
Print Assumptions C53_little_endian.

Example C53_case : exists f f' b h, serialised ["eth"; "opc-ua"; "pub-id"; "0x1234"; "wg-id"; "7"] f f' b /\
  nth_error (fr_stack f) 1 = Some h /\ header_words ("opc-ua" :: words_of [("pub-id", "0x1234"); ("wg-id", "7")])%string h /\
  last_given [("pub-id", "0x1234"); ("wg-id", "7")]%string "pub-id" = Some "0x1234"%string /\
  slice b (at_byte f' 1 + 2) 2 = [0x34; 0x12] /\ slice b (at_byte f' 1 + 5) 2 = [7; 0].
Proof. do 4 eexists. split; [ser|]. split; [reflexivity|]. split; [do 2 eexists; vm_compute; reflexivity|]. vm_compute. auto. Qed.

(** ** C56.  Headers do not influence how other headers are read *)
Theorem C56_own_words : forall ws n f, argc_frame ws = Ret (Some (n, f)) ->
  exists segs, concat segs = firstn n ws /\ length (concat segs) = n /\ Forall2 header_words segs (fr_stack f).
Proof. exact frame_segments. Qed.
Print Assumptions C56_own_words.

Example C56_case : exists f, argc_frame ["eth"; "dmac"; "::1"; "ipv4"; "udp"; "dport"; "5"; "data"; "hex"; "01"; "name"] = Ret (Some (10%nat, f)) /\
  length (fr_stack f) = 4%nat.
Proof. eexists. split; vm_compute; reflexivity. Qed.
