(** The formats of the headers on the wire, written down from the standards and not
    from the code: the fields of a header in the order in which they are sent, with
    their widths in bits.  The names are those a user of the program types; "-" stands
    for bits that have no name of their own. *)

From Coq Require Import ZArith List String Bool.
From Verif Require Import Frame.
From Verif Require Export SpecFill.
Import ListNotations.
Open Scope Z_scope.

Definition format := list (string * Z).

(** Where a field is: the widths of the fields before it, and its own width. *)
Fixpoint place_from (p : Z) (m : format) (fld : string) : option (Z * Z) :=
  match m with
  | [] => None
  | (n, w) :: r => if String.eqb n fld then Some (p, w) else place_from (p + w) r fld
  end.
Definition place (m : format) (fld : string) : option (Z * Z) := place_from 0 m fld.

Definition bits (m : format) : Z := fold_right (fun x a => snd x + a) 0 m.

(** IEEE 1588-2019, 13.3: the common header of all messages.  [minor] is the name of
    the minor version field, which ptp-response spells differently. *)
Definition ptp_header (minor : string) : format :=
  [ ("hdr-transportSpecific", 4); ("hdr-messageType", 4); (minor, 4); ("hdr-versionPTP", 4);
    ("hdr-messageLength", 16); ("hdr-domainNumber", 8); ("hdr-reserved1", 8); ("hdr-flagField", 16);
    ("hdr-correctionField", 64); ("hdr-reserved2", 32); ("hdr-clockId", 64); ("hdr-portNumber", 16);
    ("hdr-sequenceId", 16); ("hdr-controlField", 8); ("hdr-logMessageInterval", 8) ]%string.

(** A PTP time stamp: 48 bits of seconds and 32 bits of nanoseconds (5.3.3). *)
Definition ptp_stamp (pre : string) : format :=
  [ ((pre ++ "-secondsField")%string, 48); ((pre ++ "-nanosecondsField")%string, 32) ].

Definition minor : string := "hdr-minorVersionPTP".

Definition formats : list (string * format) :=
  [ (* IEEE 802.3, 3.1.1 *)
    ("eth", [ ("dmac", 48); ("smac", 48); ("et", 16) ]);
    (* IEEE 802.1Q, 9.6: the control information and the type of what follows *)
    ("ctag", [ ("pcp", 3); ("dei", 1); ("vid", 12); ("et", 16) ]);
    ("stag", [ ("pcp", 3); ("dei", 1); ("vid", 12); ("et", 16) ]);
    (* IEEE 802.1CB, 7.8 *)
    ("rtag", [ ("recv", 16); ("seqn", 16); ("et", 16) ]);
    (* IEC 62439-3, 5.2 and 4.2 *)
    ("htag", [ ("pathid", 4); ("size", 12); ("seqn", 16); ("et", 16) ]);
    ("prp", [ ("seqn", 16); ("lanid", 4); ("size", 12); ("suffix", 16) ]);
    (* RFC 826 for Ethernet and IPv4 *)
    ("arp", [ ("htype", 16); ("ptype", 16); ("hlen", 8); ("plen", 8); ("oper", 16);
              ("sha", 48); ("spa", 32); ("tha", 48); ("tpa", 32) ]);
    (* RFC 791, 3.1, with RFC 2474 and RFC 3168 *)
    ("ipv4", [ ("ver", 4); ("ihl", 4); ("dscp", 6); ("ecn", 2); ("len", 16); ("id", 16); ("flags", 3); ("offset", 13);
               ("ttl", 8); ("proto", 8); ("chksum", 16); ("sip", 32); ("dip", 32) ]);
    (* RFC 8200, 3 *)
    ("ipv6", [ ("ver", 4); ("dscp", 6); ("ecn", 2); ("flow", 20); ("len", 16); ("next", 8); ("hlim", 8);
               ("sip", 128); ("dip", 128) ]);
    (* RFC 792 *)
    ("icmp", [ ("type", 8); ("code", 8); ("chksum", 16); ("hd", 32) ]);
    (* RFC 3376, 4.2, and RFC 3810, 5.2: the group records *)
    ("igmpv3_group", [ ("rec_type", 8); ("auxlen", 8); ("ns", 16); ("ga", 32) ]);
    ("mldv2_group", [ ("rec_type", 8); ("auxlen", 8); ("ns", 16); ("ga", 128) ]);
    (* RFC 768 *)
    ("udp", [ ("sport", 16); ("dport", 16); ("len", 16); ("chksum", 16) ]);
    (* RFC 793, 3.1 *)
    ("tcp", [ ("sport", 16); ("dport", 16); ("seqn", 32); ("ackn", 32); ("doff", 4); ("resv", 6);
              ("urg", 1); ("ack", 1); ("psh", 1); ("rst", 1); ("syn", 1); ("fin", 1);
              ("win", 16); ("chksum", 16); ("urgp", 16) ]);
    (* RFC 7252, 3: the fixed part *)
    ("coap", [ ("ver", 2); ("type", 2); ("tkl", 4); ("code", 8); ("msgid", 16) ]);
    (* IEEE 1588-2019, 13.5 to 13.11 *)
    ("ptp-announce", (ptp_header minor ++ [ ("ann-reserved1", 80); ("ann-offset", 16); ("-", 8); ("ann-gmPrio1", 8);
        ("ann-clockClass", 8); ("ann-clockAcc", 8); ("ann-offsetScaledLogVariance", 16); ("ann-gmPrio2", 8);
        ("ann-gmIdentity", 64); ("ann-stepsRemoved", 16); ("ann-timeSource", 8) ])%list);
    ("ptp-sync", (ptp_header minor ++ ptp_stamp "ots")%list);
    ("ptp-request", (ptp_header minor ++ ptp_stamp "ots")%list);
    ("ptp-follow-up", (ptp_header minor ++ ptp_stamp "pts")%list);
    ("ptp-response", (ptp_header "hdr-minotrVersionPTP" ++ ptp_stamp "rts" ++ [ ("rpi-clockId", 64); ("rpi-portNumber", 16) ])%list);
    ("ptp-peer-request", (ptp_header minor ++ [ ("rpi-reserved", 160) ])%list);
    ("ptp-peer-response", (ptp_header minor ++ ptp_stamp "rts" ++ [ ("rpi-clockId", 64); ("rpi-portNumber", 16) ])%list);
    ("ptp-peer-response-follow-up", (ptp_header minor ++ ptp_stamp "rots" ++ [ ("rpi-clockId", 64); ("rpi-portNumber", 16) ])%list);
    (* IEEE 802.1AS, 11.4.4.3: the follow up information TLV; the path trace TLV *)
    ("ptp-tlv-org", [ ("tlv-type", 16); ("tlv-length", 16); ("tlv-org-id", 24); ("tlv-org-sub-type", 24); ("tlv-csro", 32);
        ("tlv-gm-time-base-indicator", 16); ("tlv-gm-phase-change-msb-nsec", 16); ("tlv-gm-phase-change-lsb-nsec", 64);
        ("tlv-gm-phase-change-frac-nsec", 16); ("tlv-gm-freq-change", 32) ]);
    ("ptp-tlv-path", [ ("tlv-type", 16); ("tlv-length", 16) ]);
    (* IEC 62439-2: MRP_Version and the TLVs Test, TopologyChange, LinkChange, Option and Common *)
    ("mrp_tst", [ ("version", 16); ("t_type", 8); ("t_length", 8); ("t_prio", 16); ("t_sa", 48); ("t_role", 16); ("t_state", 16);
        ("t_trans", 16); ("t_ts", 32); ("c_type", 8); ("c_length", 8); ("c_seq_num", 16); ("c_domain", 128); ("e_type", 8);
        ("e_length", 8); ("padding", 160) ]);
    ("mrp_topo", [ ("version", 16); ("t_type", 8); ("t_length", 8); ("t_prio", 16); ("t_sa", 48); ("t_interval", 16);
        ("c_type", 8); ("c_length", 8); ("c_seq_num", 16); ("c_domain", 128); ("e_type", 8); ("e_length", 8); ("padding", 240) ]);
    ("mrp_lnk", [ ("version", 16); ("t_type", 8); ("t_length", 8); ("t_sa", 48); ("t_role", 16); ("t_interval", 16); ("t_blocked", 16);
        ("c_type", 8); ("c_length", 8); ("c_seq_num", 16); ("c_domain", 128); ("e_type", 8); ("e_length", 8); ("padding", 240) ]);
    ("mrp_prop_nack", [ ("version", 16); ("t_type", 8); ("t_length", 8); ("t_qui", 24); ("t_sub1_type", 8); ("t_sub1_man", 16);
        ("t_s_type", 8); ("t_s_length", 8); ("t_s_prio", 16); ("t_s_sa", 48); ("t_s_oprio", 16); ("t_s_osa", 48);
        ("c_type", 8); ("c_length", 8); ("c_seq_num", 16); ("c_domain", 128); ("e_type", 8); ("e_length", 8); ("padding", 320) ]);
    (* ITU-T G.8013/Y.1731, 9: CCM, LBM/LBR, LTM/LTR and APS; G.8031 and G.8032 *)
    ("oam-ccm", [ ("mel", 3); ("version", 5); ("opcode", 8); ("rdi", 1); ("reserved", 4); ("period", 3); ("tlv_off", 8);
        ("seq_num", 32); ("mep_id", 16); ("meg_id", 384); ("txfcf", 32); ("rxfcb", 32); ("txfcb", 32); ("-", 32);
        ("end_tlv", 8); ("tlv_length", 16); ("tlv_value", 8) ]);
    ("oam-laps", [ ("mel", 3); ("version", 5); ("opcode", 8); ("flags", 8); ("tlv_off", 8); ("req_sta", 4); ("prot_type", 4);
        ("request_sig", 8); ("bridge_sig", 8); ("t", 1); ("reserved", 7); ("padding", 400) ]);
    ("oam-lb", [ ("mel", 3); ("version", 5); ("opcode", 8); ("flags", 8); ("tlv_off", 8); ("trans_id", 32); ("type", 8);
        ("tlv_length", 16); ("pattern_type", 8); ("pattern", 56); ("crc32", 32); ("padding", 400) ]);
    ("oam-lt", [ ("mel", 3); ("version", 5); ("opcode", 8); ("flags", 8); ("tlv_off", 8); ("trans_id", 32); ("padding", 480) ]);
    ("oam-raps", [ ("mel", 3); ("version", 5); ("opcode", 8); ("flags", 8); ("tlv_off", 8); ("req_sta", 4); ("sub_code", 4);
        ("status", 8); ("node_id", 48); ("reserved", 192); ("padding", 80) ]);
    (* OPC 10000-14, 7.2.4: network message, extended flags, group header *)
    ("opc-ua", [ ("flags-flags1", 1); ("flags-pl-hdr", 1); ("flags-grp-hdr", 1); ("flags-pub-id", 1); ("version", 4);
        ("flags1-flags2", 1); ("flags1-pico-seconds", 1); ("flags1-timestamp", 1); ("flags1-security", 1); ("flags1-dsc-id", 1);
        ("flags1-pub-id-type", 3); ("pub-id", 16); ("gflags-rsvd", 4); ("gflags-seq-num", 1); ("gflags-nm-num", 1);
        ("gflags-gversion", 1); ("gflags-wg-id", 1); ("wg-id", 16); ("gversion", 32); ("nm-num", 16); ("seq-num", 16) ]) ]%string.

(** Messages with several forms.
    - igmp (RFC 2236; RFC 3376, 4.1 and 4.2): the group address, in a report the
      reserved bits and the number of records instead; then the query fields if one
      of them is given.
    - mld (RFC 2710; RFC 3810, 5.1 and 5.2): likewise.
    - profinet-rtc (IEC 61158-6-10): frame identifier, the data as long as given, cycle
      counter, data status, transfer status.  Nothing is said about the header when
      no data is given.
    - sv, the supervision frame of IEC 62439-3, 4.3: without the second TLV its
      fields are not there; the end TLV then is not reachable by name. *)
Definition igmp_format (h : hdr) : format :=
  ([ ("type", 8); ("max_resp", 8); ("chksum", 16) ] ++
   (if is_report h then [ ("rresv", 16); ("ng", 16) ] else [ ("ga", 32) ]) ++
   (if is_query h then [ ("qresv", 4); ("s", 1); ("qrv", 3); ("qqic", 8); ("ns", 16) ] else [])).

Definition mld_format (h : hdr) : format :=
  ([ ("type", 8); ("code", 8); ("chksum", 16) ] ++
   (if is_report h then [ ("rresv", 16); ("ng", 16) ] else [ ("max_resp", 16); ("rsv", 16); ("ga", 128) ]) ++
   (if is_query h then [ ("qresv", 4); ("s", 1); ("qrv", 3); ("qqic", 8); ("ns", 16) ] else [])).

Definition sv_format (h : hdr) : format :=
  ([ ("path", 4); ("ver", 12); ("seqn", 16); ("tlv1_type", 8); ("tlv1_len", 8); ("tlv1_mac", 48) ] ++
   (if existsb (given h) ["tlv2_type"; "tlv2_len"; "tlv2_mac"]
    then [ ("tlv2_type", 8); ("tlv2_len", 8); ("tlv2_mac", 48); ("tlv0_type", 8); ("tlv0_len", 8) ] else [])).

Definition profinet_format (h : hdr) : option format :=
  match value_of h "data" with
  | Some v => Some [ ("frameid", 16); ("data", 8 * Z.of_nat (length v)); ("cycle", 16); ("ignore", 1); ("reserved2", 1); ("station-ok", 1);
        ("provider-state-run", 1); ("reserved1", 1); ("data-valid", 1); ("redundancy", 1); ("primary", 1); ("transfer-status", 8) ]
  | None => None
  end.

Definition format_of (h : hdr) : option format :=
  if String.eqb (h_name h) "igmp" then Some (igmp_format h)
  else if String.eqb (h_name h) "mld" then Some (mld_format h)
  else if String.eqb (h_name h) "sv" then Some (sv_format h)
  else if String.eqb (h_name h) "profinet-rtc" then profinet_format h
  else match find (fun p => String.eqb (fst p) (h_name h)) formats with Some p => Some (snd p) | None => None end.

(** Field [fld] of header [h] is the [w] bits from bit [off] on. *)
Definition stands_at (h : hdr) (fld : string) (off w : Z) : Prop :=
  fld <> "-"%string /\ exists m, format_of h = Some m /\ place m fld = Some (off, w).

(** The fields the program works out itself: C21 to C26, C31 and C55. *)
Definition worked_out : list (string * list string) :=
  [ ("eth", ["et"]); ("ctag", ["et"]); ("stag", ["et"]); ("rtag", ["et"]); ("htag", ["et"]);
    ("ipv4", ["len"; "proto"; "chksum"]); ("ipv6", ["len"; "next"]); ("icmp", ["chksum"]); ("igmp", ["chksum"]);
    ("mld", ["chksum"]); ("udp", ["len"; "chksum"]); ("tcp", ["chksum"]); ("coap", ["tkl"]);
    ("ptp-sync", ["hdr-messageLength"]); ("ptp-follow-up", ["hdr-messageLength"]); ("ptp-request", ["hdr-messageLength"]);
    ("ptp-response", ["hdr-messageLength"]); ("ptp-peer-request", ["hdr-messageLength"]); ("ptp-peer-response", ["hdr-messageLength"]);
    ("ptp-peer-response-follow-up", ["hdr-messageLength"]); ("ptp-announce", ["hdr-messageLength"]);
    ("ptp-tlv-org", ["tlv-length"]); ("ptp-tlv-path", ["tlv-length"]) ]%string.
Definition is_worked_out (n fld : string) : bool :=
  existsb (fun p => String.eqb (fst p) n && existsb (String.eqb fld) (snd p)) worked_out.

(** What a field holds that is neither given nor worked out: 0, but for these. *)
Definition preset : list (string * list (string * Z)) :=
  [ ("eth", [("dmac", 0xffffffffffff); ("smac", 1)]);
    ("prp", [("suffix", 0x88fb)]);
    ("arp", [("htype", 1); ("ptype", 0x0800); ("hlen", 6); ("plen", 4)]);
    ("ipv4", [("ver", 4); ("ihl", 5); ("ttl", 31)]);
    ("ipv6", [("ver", 6); ("hlim", 31)]);
    ("tcp", [("doff", 5)]);
    ("coap", [("ver", 1)]);
    ("sv", [("ver", 1); ("tlv1_type", 20); ("tlv1_len", 6); ("tlv2_type", 30); ("tlv2_len", 6)]);
    (* messageType: IEEE 1588-2019, table 36 *)
    ("ptp-sync", [("hdr-messageType", 0)]); ("ptp-request", [("hdr-messageType", 1)]);
    ("ptp-peer-request", [("hdr-messageType", 2)]); ("ptp-peer-response", [("hdr-messageType", 3)]);
    ("ptp-follow-up", [("hdr-messageType", 8)]); ("ptp-response", [("hdr-messageType", 9)]);
    ("ptp-peer-response-follow-up", [("hdr-messageType", 10)]); ("ptp-announce", [("hdr-messageType", 11)]);
    ("ptp-tlv-org", [("tlv-type", 3)]);
    ("mrp_tst", [("version", 1); ("t_type", 2); ("t_length", 18); ("c_type", 1); ("c_length", 18)]);
    ("mrp_topo", [("version", 1); ("t_type", 3); ("t_length", 12); ("c_type", 1); ("c_length", 18)]);
    ("mrp_lnk", [("version", 1); ("t_type", 4); ("t_length", 12); ("c_type", 1); ("c_length", 18)]);
    ("mrp_prop_nack", [("version", 1); ("t_type", 127); ("t_length", 24); ("t_s_type", 2); ("t_s_length", 16); ("c_type", 1); ("c_length", 18)]);
    (* OpCodes: G.8013, table 9-1 *)
    ("oam-ccm", [("opcode", 1); ("tlv_off", 70)]); ("oam-laps", [("opcode", 39); ("tlv_off", 4)]); ("oam-lb", [("tlv_off", 4)]);
    ("oam-raps", [("version", 1); ("opcode", 40); ("tlv_off", 32)]);
    ("profinet-rtc", [("station-ok", 1); ("provider-state-run", 1); ("data-valid", 1); ("primary", 1)]);
    ("opc-ua", [("flags-flags1", 1); ("flags-grp-hdr", 1); ("flags-pub-id", 1); ("version", 1); ("flags1-flags2", 1);
        ("flags1-pub-id-type", 1); ("gflags-seq-num", 1); ("gflags-nm-num", 1); ("gflags-gversion", 1); ("gflags-wg-id", 1)]) ]%string.
Definition preset_value (n fld : string) : Z :=
  match find (fun p => String.eqb (fst p) n) preset with
  | Some p => match find (fun q => String.eqb (fst q) fld) (snd p) with Some q => snd q | None => 0 end
  | None => 0
  end.

(** The field of a header that says what the next header is. *)
Definition announces : list (string * string) :=
  [ ("eth", "et"); ("ctag", "et"); ("stag", "et"); ("rtag", "et"); ("htag", "et"); ("ipv4", "proto"); ("ipv6", "next") ]%string.

(** The ethertypes (IEEE registration authority) and the protocol numbers (IANA) of
    the headers.  ICMP is protocol 1 in IPv4 and 58 in IPv6, where MLD is part of it. *)
Definition ethertypes : list (string * Z) :=
  [ ("ipv4", 0x0800); ("arp", 0x0806); ("ctag", 0x8100); ("ipv6", 0x86dd); ("profinet-rtc", 0x8892); ("stag", 0x88a8);
    ("mrp_tst", 0x88e3); ("mrp_topo", 0x88e3); ("mrp_lnk", 0x88e3); ("mrp_prop_nack", 0x88e3);
    ("ptp-sync", 0x88f7); ("ptp-request", 0x88f7); ("ptp-peer-request", 0x88f7); ("ptp-peer-response", 0x88f7);
    ("ptp-follow-up", 0x88f7); ("ptp-response", 0x88f7); ("ptp-peer-response-follow-up", 0x88f7); ("ptp-announce", 0x88f7);
    ("sv", 0x88fb); ("oam-ccm", 0x8902); ("oam-laps", 0x8902); ("oam-lb", 0x8902); ("oam-lt", 0x8902); ("oam-raps", 0x8902);
    ("htag", 0x892f); ("opc-ua", 0xb62c); ("rtag", 0xf1c1) ]%string.
Definition protocols4 : list (string * Z) :=
  [ ("icmp", 1); ("igmp", 2); ("ipv4", 4); ("tcp", 6); ("udp", 17); ("ipv6", 41) ]%string.
Definition protocols6 : list (string * Z) :=
  [ ("ipv4", 4); ("tcp", 6); ("udp", 17); ("ipv6", 41); ("icmp", 58); ("mld", 58) ]%string.

(** The number by which header [n] announces header [m]. *)
Definition registered (n m : string) (x : Z) : Prop :=
  In (m, x) (if String.eqb n "ipv4" then protocols4 else if String.eqb n "ipv6" then protocols6 else ethertypes).
