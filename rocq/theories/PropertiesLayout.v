(** Properties C63 and C64: the frames are those of the standards. *)

From Verif Require Import PTextIp PTextHex Frame Fill PSer PImage PCheck SpecFill PropertiesFill SpecLayout PLayout.

(** ** C63: every field is where the standard puts it *)

(** A given value: its low bits, where the format says. *)
Theorem C63_given : forall ws f f' b k h fld off w v, serialised ws f f' b -> nth_error (fr_stack f) k = Some h ->
  stands_at h fld off w -> value_of h fld = Some v ->
  field_at f' b k off (Z.to_nat w) = positional 256 v mod 2 ^ w.
Proof. intros ws f f' b k h fld off w v HS Hk Hp. apply (proj1 (layout ws f f' b k h fld off w HS Hk Hp)). Qed.
Print Assumptions C63_given.

(** A field that is neither given nor worked out by the program. *)
Theorem C63_default : forall ws f f' b k h fld off w, serialised ws f f' b -> nth_error (fr_stack f) k = Some h ->
  stands_at h fld off w -> value_of h fld = None -> is_worked_out (h_name h) fld = false ->
  field_at f' b k off (Z.to_nat w) = preset_value (h_name h) fld.
Proof. intros ws f f' b k h fld off w HS Hk Hp. apply (proj2 (layout ws f f' b k h fld off w HS Hk Hp)). Qed.
Print Assumptions C63_default.

(** The header is as long as its format (a CoAP header also has its token, a
    supervision frame its end TLV). *)
Theorem C63_size : forall ws f f' b k h h' m, serialised ws f f' b -> header_pair f f' k h h' -> format_of h = Some m ->
  ~ In (h_name h) ["coap"; "sv"; "profinet-rtc"]%string -> 8 * h_size h' = bits m.
Proof. exact layout_size. Qed.
Print Assumptions C63_size.

Ltac std := split; [discriminate|eexists; split; [reflexivity|vm_compute; reflexivity]].

Example C63_case :
  (exists f f' b h, serialised ["eth"; "ipv4"; "dscp"; "46"; "tcp"; "syn"; "1"; "win"; "0x12345"] f f' b /\
     nth_error (fr_stack f) 2 = Some h /\ stands_at h "syn" 110 1 /\ value_of h "syn" = Some [1] /\ field_at f' b 2 110 1 = 1 /\
     stands_at h "win" 112 16 /\ field_at f' b 2 112 16 = 0x2345 /\
     stands_at h "doff" 96 4 /\ value_of h "doff" = None /\ is_worked_out "tcp" "doff" = false /\ field_at f' b 2 96 4 = 5) /\
  (exists f f' b h h' m, serialised ["eth"; "ipv6"; "sip"; "::1"; "dip"; "ff02::16"; "mld"; "ng"; "2"] f f' b /\ header_pair f f' 2 h h' /\ stands_at h "ng" 48 16 /\
     field_at f' b 2 48 16 = 2 /\ format_of h = Some m /\ ~ In (h_name h) ["coap"; "sv"; "profinet-rtc"]%string /\ bits m = 64) /\
  (exists f f' b h, serialised ["eth"; "profinet-rtc"; "data"; "0123456789ab0123456789ab0123456789ab0123456789ab0123456789ab0123456789ab0123456789ab"; "cycle"; "7"] f f' b /\
     nth_error (fr_stack f) 1 = Some h /\ stands_at h "cycle" 352 16 /\ field_at f' b 1 352 16 = 7) /\
  (exists f f' b h, serialised ["eth"; "ptp-sync"; "hdr-sequenceId"; "513"] f f' b /\
     nth_error (fr_stack f) 1 = Some h /\ stands_at h "hdr-sequenceId" 240 16 /\ field_at f' b 1 240 16 = 513).
Proof.
  split; [|split; [|split]].
  - do 4 eexists. split; [ser|]. split; [reflexivity|]. split; [std|]. split; [reflexivity|]. split; [vm_compute; reflexivity|].
    split; [std|]. split; [vm_compute; reflexivity|]. split; [std|]. split; [reflexivity|]. split; [reflexivity|vm_compute; reflexivity].
  - do 6 eexists. split; [ser|]. split; [split; reflexivity|]. split; [std|]. split; [vm_compute; reflexivity|]. split; [reflexivity|].
    split; [cbn; intuition discriminate|vm_compute; reflexivity].
  - do 4 eexists. split; [ser|]. split; [reflexivity|]. split; [std|vm_compute; reflexivity].
  - do 4 eexists. split; [ser|]. split; [reflexivity|]. split; [std|vm_compute; reflexivity].
Qed.

(** ** C64: the registered numbers *)

(** Full claim: without the last hypothesis, which excludes IP in IP, MLD in IPv6, and
    ICMP in IPv6 when its checksum is given. *)
Theorem C64_registered_partial : forall ws f f' b k h fld off w m x, serialised ws f f' b -> nth_error (fr_stack f) k = Some h -> named f (S k) m ->
  In (h_name h, fld) announces -> stands_at h fld off w -> user_gave f k fld = false -> registered (h_name h) m x ->
  (In (h_name h) ["ipv4"; "ipv6"] -> In m ["icmp"; "igmp"; "tcp"; "udp"] /\ (h_name h = "ipv6" -> m = "icmp" -> user_gave f (S k) "chksum" = false))%string ->
  field_at f' b k off (Z.to_nat w) = x.
Proof. exact registered_numbers. Qed.
Print Assumptions C64_registered_partial.

Example C64_case : exists f f' b h0 h1 h2, serialised ["eth"; "stag"; "ipv6"; "sip"; "::1"; "dip"; "::2"; "icmp"] f f' b /\
  nth_error (fr_stack f) 0 = Some h0 /\ nth_error (fr_stack f) 1 = Some h1 /\ nth_error (fr_stack f) 2 = Some h2 /\
  named f 1 "stag" /\ named f 2 "ipv6" /\ named f 3 "icmp" /\
  stands_at h0 "et" 96 16 /\ stands_at h1 "et" 16 16 /\ stands_at h2 "next" 48 8 /\
  registered "eth" "stag" 0x88a8 /\ registered "stag" "ipv6" 0x86dd /\ registered "ipv6" "icmp" 58 /\
  user_gave f 0 "et" = false /\ user_gave f 2 "next" = false /\ user_gave f 3 "chksum" = false.
Proof.
  do 6 eexists. split; [ser|]. do 3 (split; [reflexivity|]). do 3 (split; [nam|]). do 3 (split; [std|]).
  do 3 (split; [cbn; tauto|]). auto.
Qed.

Theorem C64_refuted :
  (exists ws f f' b, serialised ws f f' b /\ named f 1 "ipv6" /\ named f 2 "mld" /\ user_gave f 1 "next" = false /\ field_at f' b 1 48 8 = 0) /\
  (exists ws f f' b, serialised ws f f' b /\ named f 1 "ipv4" /\ named f 2 "ipv4" /\ user_gave f 1 "proto" = false /\ field_at f' b 1 72 8 = 0) /\
  (exists ws f f' b, serialised ws f f' b /\ named f 1 "ipv6" /\ named f 2 "icmp" /\ user_gave f 1 "next" = false /\ field_at f' b 1 48 8 = 1).
Proof.
  split; [|split].
  - exists ["eth"; "ipv6"; "sip"; "::1"; "dip"; "ff02::16"; "mld"]%string. do 3 eexists. split; [ser|]. split; [nam|]. split; [nam|]. split; [reflexivity|vm_compute; reflexivity].
  - exists ["eth"; "ipv4"; "ipv4"; "udp"]%string. do 3 eexists. split; [ser|]. split; [nam|]. split; [nam|]. split; [reflexivity|vm_compute; reflexivity].
  - exists ["eth"; "ipv6"; "icmp"; "chksum"; "5"]%string. do 3 eexists. split; [ser|]. split; [nam|]. split; [nam|]. split; [reflexivity|vm_compute; reflexivity].
Qed.
Print Assumptions C64_refuted.
