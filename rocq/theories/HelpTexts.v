(** GENERATED by tools/gen_templates.py from /repo/src -- do not edit.

    The texts of the help: the member [help] of the headers and of their fields
    ([None]: NULL), and the text of print_help. *)

From Verif Require Export Templates.

(** For every header of [hdr_tmpls] its name, its text and the texts of its fields. *)
Definition help_texts : list (string * (option string * list (option string))) :=
  [
    (* src/ef-ifh.c:13 *)
    ("sp-oc1", (Some "Short prefix for injection and extraction of frames for Ocelot1",
      [ Some "Ethertype for short prefix. Defaults to 0x8880";
        Some "Id for short prefix. Defaults to 0x000a" ]));
    (* src/ef-ifh.c:36 *)
    ("lp-oc1", (Some "Long prefix for injection and extraction of frames for Ocelot1",
      [ Some "Destination MAC address. Defaults to ff:ff:ff:ff:ff:ff";
        Some "Source MAC address. Defaults to ff:ff:ff:ff:ff:ff";
        Some "Ethertype for long prefix. Defaults to 0x8880";
        Some "Id for long prefix. Defaults to 0x000a" ]));
    (* src/ef-ifh.c:119 *)
    ("ifh-oc1", (Some "Injection Frame Header for Ocelot1",
      [ Some "Skip analyzer processing";
        Some "Replace SMAC address";
        Some "Rewriter operation command";
        Some "Enable masquerading";
        Some "Masquerading port";
        Some "Receive time stamp";
        Some "Reserved";
        Some "Destination set for the frame. Dest[11] is the CPU";
        Some "Reserved";
        Some "The port number where the frame was injected (0-12)";
        Some "Reserved";
        Some "Timer for periodic transmissions (1..8). If zero then normal injection";
        Some "Reserved";
        Some "Drop precedence level after policing";
        Some "Number of VLAN tags that must be popped";
        Some "CPU extraction queue mask";
        Some "Classified QoS class";
        Some "Tag information's associated Tag Protocol Identifier (TPID)";
        Some "Classified PCP";
        Some "Classified DEI";
        Some "Classified VID" ]));
    (* src/ef-ifh.c:193 *)
    ("efh-oc1", (Some "Extraction Frame Header for Ocelot1",
      [ Some "Reserved";
        Some "Replace SMAC address.";
        Some "Rewriter operation command.";
        Some "Receive time stamp";
        Some "Frame length in bytes: 60 * WLEN + LLEN - 80";
        Some "See LLEN";
        Some "Reserved";
        Some "Classified ISDX";
        Some "The port number where the frame was injected (0-12)";
        Some "The combined ACL_ID action of the rules in IS2";
        Some "Reserved";
        Some "sFlow sampling ID";
        Some "Set if frame has hit a rule in IS2";
        Some "Drop precedence level after policing";
        Some "MAC address learning action";
        Some "CPU extraction queue mask";
        Some "Classified QoS class";
        Some "Tag information's associated Tag Protocol Identifier (TPID)";
        Some "Classified PCP";
        Some "Classified DEI";
        Some "Classified VID" ]));
    (* src/ef-ifh.c:216 *)
    ("sp-jr2", (Some "Short prefix for injection and extraction of frames for Jaguar2",
      [ Some "Destination MAC address. Defaults to ff:ff:ff:ff:ff:ff";
        Some "Source MAC address. Defaults to ff:ff:ff:ff:ff:ff";
        Some "Ethertype for short prefix. Defaults to 0x8880";
        Some "Id for short prefix. Defaults to 0x0009" ]));
    (* src/ef-ifh.c:251 *)
    ("lp-jr2", (Some "Long prefix for injection and extraction of frames for Jaguar2",
      [ Some "Destination MAC address. Defaults to ff:ff:ff:ff:ff:ff";
        Some "Source MAC address. Defaults to ff:ff:ff:ff:ff:ff";
        Some "Ethertype for VLAN header. Defaults to 0x8100";
        Some "Priority Code Point";
        Some "Drop Elegible Indicator";
        Some "VLAN Identifier. Defaults to 1";
        Some "Ethertype for long prefix. Defaults to 0x8880";
        Some "Id for long prefix. Defaults to 0x0009" ]));
    (* src/ef-ifh.c:647 *)
    ("ifh-jr2", (Some "Internal Frame Header for Jaguar2",
      [ Some "Arrival time stamp";
        Some "Reserved field. Must be 0";
        Some "Update IP4 TTL and chksum/IP6 Hopcnt";
        Some "Instruct rewriter to swap MAC addresses";
        Some "Tag protocol IDs";
        Some "Reserved field. Must be 0";
        Some "Generic index. VSI when GEN_IDX_MODE = 1";
        Some "Generic index mode. 0: Reserved. 1: VSI";
        Some "Protect is active";
        Some "PDU WORD16 (= 2 bytes) offset from W16_POP_CNT to Protocol data unit (PDU)";
        Some "PDU type used to handle OAM, PTP and SAT";
        Some "Classified MATCH_ID combined from VCAP CLM and VCAP IS2.";
        Some "TTL value for possible use in MPLS label";
        Some "SBIT of last popped MPLS label for possible use in MPLS label";
        Some "TC value for possible use in MPLS label";
        Some "Type after pop";
        Some "Number of WORD16 (= 2 bytes) to be popped by rewriter";
        Some "Reserved field. Must be 0";
        Some "Destination port mask. (only used for injection)";
        Some "Reserved field. Must be 0";
        Some "Egress router leg for unicast";
        Some "Next hop DMAC. Only used for unicast routing";
        Some "Reserved field. Must be 0";
        Some "IP multicast group used for L3 multicast copies";
        Some "Egress router leg for multicast";
        Some "Number of multicast routed copies. Only used for multicast routing";
        Some "Reserved field. Must be 1";
        Some "Reserved field. Must be 0";
        Some "GLAG aggregation code";
        Some "Class of service";
        Some "Ingress service index";
        Some "Reserved field. Must be 0";
        Some "Classified drop precedence level";
        Some "Super priority";
        Some "Classified quality of service value (internal priority)";
        Some "Congestion management information";
        Some "Reserved field. Must be 0";
        Some "Reserved field. Must be 0";
        Some "Time to live";
        Some "Learning mode";
        Some "Forward mode";
        Some "Reserved field. Must be 0";
        Some "Destination port type";
        Some "Destination unit port set ID";
        Some "Logical destination port at unit identified by dst_upsid";
        Some "Reserved field. Must be 0";
        Some "Destination unit port set ID";
        Some "Physical destination port at unit identified by dst_upsid";
        Some "Reserved field. Must be 0";
        Some "Forward to ports part of this multicast group index";
        Some "Reserved field. Must be 0";
        Some "Destination unit port set ID";
        Some "Reserved field. Must be 0";
        Some "CPU destination port at unit identified by dst_upsid";
        Some "Reserved field. Must be 0";
        Some "Special TTL handling used for neighbor discovery";
        Some "Reserved field. Must be 0";
        Some "CPU destination port at unit identified by dst_upsid";
        Some "VCAP IS2 action REW_CMD";
        Some "Classified priority code point value";
        Some "Classified drop eligible indicator value";
        Some "Classified VID";
        Some "If set, frame was VLAN-tagged at reception";
        Some "Tag type";
        Some "Ingress port type";
        Some "Source port type";
        Some "Source address mode";
        Some "ID of stack unit port set, where the frame was initially received";
        Some "Reserved field. Must be 0";
        Some "Internal port number";
        Some "ID of stack unit port set, where the frame was initially received";
        Some "Logical port number of the port, where the frame was initially received";
        Some "ID of the GLAG";
        Some "Injected into AFI";
        Some "Reserved field. Must be 0";
        Some "Controls use of ISDX in ES0 key";
        Some "Reserved field. Must be 0";
        Some "True if VSTAX section is valid";
        Some "Force update of FCS";
        Some "Reserved field. Must be 0";
        Some "Controls format of IFH.DST";
        Some "Frame forwarded to CPU due to sFlow sampling";
        Some "Must be set to 0. Set if frame is aged by QSYS";
        Some "Signals that the frame is Rx mirrored";
        Some "Signals mirror probe for mirrored traffic";
        Some "Physical source port number";
        Some "Prevents the rewriter from making any changes of frames";
        Some "Pipeline action";
        Some "Pipeline point";
        Some "CPU extraction queue mask";
        Some "Number of VLAN tags popped";
        Some "Prevents rewriter from remapping DSCP values of frames";
        Some "Causes rewriter to update the DSCP value with IFH.QOS.DSCP";
        Some "DSCP value" ]));
    (* src/ef-ifh.c:1046 *)
    ("ifh-fa", (Some "Internal Frame Header for FireAnt",
      [ Some "Reserved";
        Some "Arrival time stamp";
        Some "RLEG mode";
        Some "RLEG value";
        Some "Reserved field. Must be 0";
        Some "Router forward flag";
        Some "Instruct rewriter to swap MAC addresses";
        Some "Tag protocol IDs";
        Some "Generic VID";
        Some "Classified VID extension";
        Some "Protect is active";
        Some "PDU WORD16 (= 2 bytes) offset from W16_POP_CNT to Protocol data unit (PDU)";
        Some "PDU type used to handle OAM, PTP and SAT";
        Some "Classified MATCH_ID combined from VCAP CLM and VCAP IS2.";
        Some "TTL value for possible use in MPLS label";
        Some "SBIT of last popped MPLS label for possible use in MPLS label";
        Some "TC value for possible use in MPLS label";
        Some "Action after pop";
        Some "Type after pop";
        Some "Number of WORD16 (= 2 bytes) to be popped by rewriter";
        Some "Reserved field. Must be 0";
        Some "Egress router leg for unicast";
        Some "Next hop DMAC. Only used for unicast routing";
        Some "Reserved field. Must be 0";
        Some "IP multicast group used for L3 multicast copies";
        Some "Egress router leg for multicast";
        Some "Number of multicast routed copies. Only used for multicast routing";
        Some "Reserved field. Must be 1";
        Some "Reserved field. Must be 0";
        Some "GLAG aggregation code";
        Some "Class of service";
        Some "Ingress service index";
        Some "Reserved field. Must be 0";
        Some "Classified drop precedence level";
        Some "Super priority";
        Some "Classified quality of service value (internal priority)";
        Some "Congestion management information";
        Some "Reserved field. Must be 0";
        Some "Reserved field. Must be 0";
        Some "Time to live";
        Some "Learning mode";
        Some "Forward mode";
        Some "Reserved field. Must be 0";
        Some "Destination port type";
        Some "Destination unit port set ID";
        Some "Logical destination port at unit identified by dst_upsid";
        Some "Reserved field. Must be 0";
        Some "Destination unit port set ID";
        Some "Physical destination port at unit identified by dst_upsid";
        Some "Forward to ports part of this multicast group index";
        Some "Reserved field. Must be 0";
        Some "Destination unit port set ID";
        Some "Reserved field. Must be 0";
        Some "CPU destination port at unit identified by dst_upsid";
        Some "Reserved field. Must be 0";
        Some "Special TTL handling used for neighbor discovery";
        Some "Reserved field. Must be 0";
        Some "CPU destination port at unit identified by dst_upsid";
        Some "VCAP IS2 action REW_CMD";
        Some "Classified priority code point value";
        Some "Classified drop eligible indicator value";
        Some "Classified VID";
        Some "If set, frame was VLAN-tagged at reception";
        Some "Tag type";
        Some "Ingress port type";
        Some "Source port type";
        Some "Source address mode";
        Some "ID of stack unit port set, where the frame was initially received";
        Some "Reserved field. Must be 0";
        Some "Internal port number";
        Some "ID of stack unit port set, where the frame was initially received";
        Some "Logical port number of the port, where the frame was initially received";
        Some "ID of the GLAG";
        Some "Injected into AFI";
        Some "Reserved field. Must be 0";
        Some "Controls use of ISDX in ES0 key";
        Some "Reserved field. Must be 0";
        Some "True if VSTAX section is valid";
        Some "Force update of FCS";
        Some "Reserved field. Must be 0";
        Some "Controls format of IFH.DST";
        Some "sFlow sampling ID";
        Some "Must be set to 0. Set if frame is aged by QSYS";
        Some "Signals that the frame is Rx mirrored";
        Some "Signals mirror probe for mirrored traffic";
        Some "Physical source port number";
        Some "Prevents the rewriter from making any changes of frames";
        Some "Pipeline action";
        Some "Pipeline point";
        Some "CPU extraction queue mask";
        Some "Number of VLAN tags popped";
        Some "Number of VLAN tags pushed";
        Some "True if frame contains R-tag or E-tag";
        Some "802.1CB sequence number";
        Some "Prevents rewriter from remapping DSCP values of frames";
        Some "Causes rewriter to update the DSCP value with IFH.QOS.DSCP";
        Some "DSCP value" ]));
    (* src/ef-ifh.c:1538 *)
    ("ifh-crcl", (Some "Injection Frame Header for Caracal",
      [ Some "Skip analyzer processing";
        Some "PTP action";
        Some "PTP ID";
        Some "Destination port set";
        Some "Reserved field";
        Some "VLAN tag pop count";
        Some "CPU extraction queue mask";
        Some "Classified QoS class";
        Some "C-tag (0) or S-tag (1)";
        Some "Classified PCP";
        Some "Classified DEI";
        Some "Classified VID" ]));
    (* src/ef-ifh.c:1591 *)
    ("efh-crcl", (Some "Extraction Frame Header for Caracal",
      [ Some "Must be 0xff";
        Some "Source port";
        Some "Classified DSCP";
        Some "ACL ID";
        Some "SFlow sampling ID";
        Some "ACL hit flag";
        Some "Drop precedence";
        Some "Learn flags";
        Some "CPU extraction queue mask";
        Some "Classified QoS class";
        Some "C-tag (0) or S-tag (1)";
        Some "Classified PCP";
        Some "Classified DEI";
        Some "Classified VID" ]));
    (* src/ef-ifh.c:1738 *)
    ("ifh-mas", (Some "Internal Frame Header for Maserati",
      [ Some "Arrival time stamp";
        Some "Skip analyzer processing (injection)";
        Some "Enable masquerading (injection)";
        Some "Masquerading port (injection)";
        Some "Reserved field (injection)";
        Some "Length (extraction)";
        Some "Small Cell";
        Some "R-tag removed";
        Some "R-tag present";
        Some "Cut-through";
        Some "Rewriter command";
        Some "Rewriter OAM";
        Some "PDU type";
        Some "FCS update";
        Some "DSCP";
        Some "Drop Precedence";
        Some "RTE inbound update";
        Some "VLAN tag pop count";
        Some "Number of tags before Ethernet Type";
        Some "Source port";
        Some "Reserved field";
        Some "Sequence number";
        Some "Tag information's associated Tag Protocol Identifier (TPID)";
        Some "Classified PCP";
        Some "Classified DEI";
        Some "Classified VID";
        Some "Classified QoS class";
        Some "CPU extraction queue mask";
        Some "Learn flags";
        Some "SFlow sampling ID";
        Some "ACL hit flag";
        Some "ACL ID";
        Some "Classified ISDX";
        Some "Destination set";
        Some "Storm policer";
        Some "Sequence operation";
        Some "Internal priority value";
        Some "Injected into AFI";
        Some "Ageing value";
        Some "RTP Identifier";
        Some "RTP MRPD flow";
        Some "Profinet data status";
        Some "Profinet transfer status";
        Some "Profinet cycle counter";
        Some "Reserved field" ]));
    (* src/ef-ifh.c:1491 *)
    ("ifh-la", (Some "Internal Frame Header for Laguna",
      [ Some "Reserved - IFH must be 288 bits - 36 bytes";
        Some "RedBox CMD";
        Some "RedBox CMD";
        Some "RedBox TAG";
        Some "Arrival time stamp";
        Some "Fill bits. LBK must be 40 bits";
        Some "LBK_COS_NXT_SEL";
        Some "LBK_COS_MASK";
        Some "LBK_CHG_IFH_COSID_ENA";
        Some "LBK_CHG_IFH_TC_ENA";
        Some "LBK_CHG_IFH_PCP_ENA";
        Some "LBK_CHG_OUTER_PCP_ENA";
        Some "Fill bits. DST be 79 bits";
        Some "RLEG mode";
        Some "RLEG value";
        Some "IS_FIRST_COPY";
        Some "Router forward flag";
        Some "Instruct rewriter to swap MAC addresses";
        Some "Tag protocol IDs";
        Some "Generic VID";
        Some "Classified VID extension";
        Some "Protect is active";
        Some "PDU WORD16 (= 2 bytes) offset from W16_POP_CNT to Protocol data unit (PDU)";
        Some "PDU type used to handle OAM, PTP and SAT";
        Some "Classified MATCH_ID combined from VCAP CLM and VCAP IS2.";
        Some "TTL value for possible use in MPLS label";
        Some "SBIT of last popped MPLS label for possible use in MPLS label";
        Some "TC value for possible use in MPLS label";
        Some "Action after pop";
        Some "Type after pop";
        Some "Number of WORD16 (= 2 bytes) to be popped by rewriter";
        Some "Fill bits. DST must be 79 bits";
        Some "Egress router leg for unicast";
        Some "Next hop DMAC. Only used for unicast routing";
        Some "Fill bits. DST must be 79 bits";
        Some "IP multicast group used for L3 multicast copies";
        Some "Egress router leg for multicast";
        Some "Number of multicast routed copies. Only used for multicast routing";
        Some "Reserved field. Must be 1";
        Some "Reserved field. Must be 0";
        Some "GLAG aggregation code";
        Some "Class of service";
        Some "Ingress service index";
        Some "Reserved field. Must be 0";
        Some "Classified drop precedence level";
        Some "Super priority";
        Some "Classified quality of service value (internal priority)";
        Some "Congestion management information";
        Some "Reserved field. Must be 0";
        Some "Reserved field. Must be 0";
        Some "Time to live";
        Some "Learning mode";
        Some "Forward mode";
        Some "Reserved field. Must be 0";
        Some "Destination port type";
        Some "Destination unit port set ID";
        Some "Logical destination port at unit identified by dst_upsid";
        Some "Reserved field. Must be 0";
        Some "Destination unit port set ID";
        Some "Physical destination port at unit identified by dst_upsid";
        Some "Forward to ports part of this multicast group index";
        Some "Reserved field. Must be 0";
        Some "Destination unit port set ID";
        Some "Reserved field. Must be 0";
        Some "CPU destination port at unit identified by dst_upsid";
        Some "Reserved field. Must be 0";
        Some "Special TTL handling used for neighbor discovery";
        Some "Reserved field. Must be 0";
        Some "CPU destination port at unit identified by dst_upsid";
        Some "VCAP IS2 action REW_CMD";
        Some "Classified priority code point value";
        Some "Classified drop eligible indicator value";
        Some "Classified VID";
        Some "If set, frame was VLAN-tagged at reception";
        Some "Tag type";
        Some "Ingress port type";
        Some "Source port type";
        Some "Source address mode";
        Some "ID of stack unit port set, where the frame was initially received";
        Some "Reserved field. Must be 0";
        Some "Internal port number";
        Some "ID of stack unit port set, where the frame was initially received";
        Some "Logical port number of the port, where the frame was initially received";
        Some "ID of the GLAG";
        Some "FWD must be 28 bit wide";
        Some "Injected into AFI";
        Some "Do LBK field";
        Some "Controls use of ISDX in ES0 key";
        Some "TS mode";
        Some "True if VSTAX section is valid";
        Some "Force update of FCS";
        Some "Learn all field";
        Some "Controls format of IFH.DST";
        Some "sFlow sampling ID";
        Some "Must be set to 0. Set if frame is aged by QSYS";
        Some "Signals that the frame is Rx mirrored";
        Some "Signals mirror probe for mirrored traffic";
        Some "Physical source port number";
        Some "Prevents the rewriter from making any changes of frames";
        Some "Pipeline action";
        Some "Pipeline point";
        Some "Injection destination port";
        Some "Number of VLAN tags popped";
        Some "Number of VLAN tags pushed";
        Some "True if frame contains R-tag or E-tag";
        Some "802.1CB sequence number";
        Some "Prevents rewriter from remapping DSCP values of frames";
        Some "Causes rewriter to update the DSCP value with IFH.QOS.DSCP";
        Some "DSCP value" ]));
    (* src/ef-eth.c:20 *)
    ("eth", (Some "Ethernet frame, e.g. eth dmac 00:00:c1:a0:b1:c2 smac 00:00:c1:a5:b6:c7 et 0x0800",
      [ Some "Destination MAC address, e.g. 00:00:c1:a0:b1:c2, ::1, 1 or 0x1";
        Some "Source MAC address, e.g. 00:00:c1:a5:b6:c7, ::1, 1 or 0x1";
        Some "EtherType, e.g. 0x0800" ]));
    (* src/ef-vlan.c:47 *)
    ("ctag", (Some "Customer VLAN Tag",
      [ Some "Priority Code Point";
        Some "Drop Elegible Indicator";
        Some "VLAN Identifier";
        Some "Tag Protocol Identifier" ]));
    (* src/ef-vlan.c:22 *)
    ("stag", (Some "Service VLAN Tag",
      [ Some "Priority Code Point";
        Some "Drop Elegible Indicator";
        Some "VLAN Identifier";
        Some "Tag Protocol Identifier" ]));
    (* src/ef-vlan.c:69 *)
    ("rtag", (Some "Redundancy Tag",
      [ Some "Reserved";
        Some "Sequence Number";
        Some "EtherType" ]));
    (* src/ef-arp.c:33 *)
    ("arp", (Some "Address Resolution Protocol, e.g. arp oper 1 spa 10.10.10.1",
      [ Some "Hardware type, e.g. 0x0001 for Ethernet";
        Some "Protocol type, e.g. 0x0800 for IPv4";
        Some "Hardware length, e.g. 6 for Ethernet";
        Some "Protocol length, e.g. 4 for IPv4";
        Some "Operation, 1 for request, 2 for reply";
        Some "Sender hardware address, e.g. 00:00:c1:a0:b1:c2";
        Some "Sender protocol address, e.g. 10.10.10.1";
        Some "Target hardware address, e.g. 00:00:c1:a0:b1:c3";
        Some "Target protocol address, e.g. 10.10.10.2" ]));
    (* src/ef-ipv4.c:94 *)
    ("ipv4", (Some "Internet Protocol version 4, e.g. ipv4 sa 10.10.10.1 da 10.10.10.2",
      [ Some "Four-bit version field, e.g. 4 for IPv4";
        Some "Internet Header Length, e.g. 5 for header without any options";
        Some "Differentiated Services Code Point";
        Some "Explicit Congestion Notification";
        Some "Total Length of the entire packet";
        Some "Identification";
        Some "Flags used for fragmentation";
        Some "Fragment offset";
        Some "Time To Live";
        Some "Protocol, e.g. 6 for TCP and 17 for UDP";
        Some "Header Checksum";
        Some "Source IP Address, e.g. 10.10.10.1";
        Some "Destination IP Address, e.g. 10.10.10.2" ]));
    (* src/ef-ipv6.c:67 *)
    ("ipv6", (Some "Internet Protocol version 6, e.g. ipv6 sip 2001:db8::1 dip 2001:db8::2",
      [ Some "Four-bit version field, e.g. 6 for IPv6";
        Some "Differentiated Services Code Point";
        Some "Explicit Congestion Notification";
        Some "Flow label";
        Some "Payload Length of Extension Headers and Upper Layer data";
        Some "Next Header, i.e. type of header that follows the IPv6 header";
        Some "Hop Limit - same as TTL in IPv4";
        Some "Source IP Address, e.g. 2001:db8::1";
        Some "Destination IP Address, e.g. 2001:db8::2" ]));
    (* src/ef-icmp.c:84 *)
    ("icmp", (Some "Internet Control Message Protocol for both IPv4 and IPv6",
      [ Some "ICMP type";
        Some "ICMP subtype";
        Some "Checksum";
        Some "Four-byte Header Data. Contents vary based on the ICMP type and code" ]));
    (* src/ef-igmp.c:165 *)
    ("igmp", (Some "Internet Group Management Protocol",
      [ Some "IGMP type";
        Some "Max Resp Time (IGMPv2) or Max Resp Code (IGMPv3), Queries only)";
        Some "Checksum";
        Some "Group Address (not to be used in IGMPv3 reports)";
        Some "Reserved (IGMPv3, Query, only)";
        Some "Suppress Router-Side Processing (IGMPv3, Query, only)";
        Some "Querier's Robustness Variable (IGMPv3, Query, only)";
        Some "Querier's Query Interval Code (IGMPv3, Query, only)";
        Some "Number of Sources (IGMPv3, Query, only)";
        Some "Reserved (IGMPv3, Report, only)";
        Some "Number of Group Records (IGMPv3, Report, only)" ]));
    (* src/ef-igmp.c:175 *)
    ("igmpv3_group", (Some "Internet Group Management Protocol - groups used in IGMPv3 Membership Report Messages",
      [ Some "IGMPv3 group record type";
        Some "IGMPv3 group auxLen";
        Some "IGMPv3 Number of Sources in group";
        Some "IGMPv2 Group Address" ]));
    (* src/ef-mld.c:247 *)
    ("mld", (Some "Multicast Listener Discovery Protocol",
      [ Some "MLD type";
        Some "Code - initialized to zero by the sender, ignored by receivers";
        Some "Checksum";
        Some "Maximum Response Delay (MLDv1) or Maximum Response Code (MLDv2), Query, only";
        Some "Reserved";
        Some "Group Address (not to be used in MLDv2 reports)";
        Some "Reserved (MLDv2, Query, only)";
        Some "Suppress Router-Side Processing (MLDv2, Query, only)";
        Some "Querier's Robustness Variable (MLDv2, Query, only)";
        Some "Querier's Query Interval Code (MLDv2, Query, only)";
        Some "Number of Sources (MLDv2, Query, only)";
        Some "Reserved (MLDv3, Report, only)";
        Some "Number of Group Records (MLDv2, Report, only)" ]));
    (* src/ef-mld.c:257 *)
    ("mldv2_group", (Some "Multicast Listener Discovery - groups used in MLDv2 Membership Report Messages",
      [ Some "MLDv2 group record type";
        Some "MLDv2 group auxLen";
        Some "MLDv2 Number of Sources in group";
        Some "MLDv2 Group Address" ]));
    (* src/ef-udp.c:117 *)
    ("udp", (Some "User Datagram Protocol",
      [ Some "Source Port Number, e.g. 22 for SSH";
        Some "Destination Port Number, e.g. 22 for SSH";
        Some "Length of UDP header and data";
        Some "Checksum" ]));
    (* src/ef-udp.c:175 *)
    ("tcp", (Some "Transmission Control Protocol",
      [ Some "Source Port Number, e.g. 22 for SSH";
        Some "Destination Port Number, e.g. 22 for SSH";
        Some "Sequence number";
        Some "Acknowledgement number";
        Some "Data offset, size of TCP header in 32-bit words";
        Some "Reserved, must be zero";
        Some "Urgent Pointer field significant";
        Some "Acknowledgment field significant";
        Some "Push Function";
        Some "Reset the connection";
        Some "Synchronize sequence numbers";
        Some "No more data from sender";
        Some "Window";
        Some "Checksum";
        Some "Urgent Pointer" ]));
    (* src/ef-payload.c:27 *)
    ("data", (Some "Generic payload data",
      [ Some "Variable length data" ]));
    (* src/ef-padding.c:20 *)
    ("padding", (Some "Ignore padding",
      [  ]));
    (* src/ef-mrp.c:61 *)
    ("mrp_tst", (Some "MRP Test frame",
      [ Some "";
        Some "";
        Some "";
        Some "";
        Some "";
        Some "";
        Some "";
        Some "";
        Some "";
        Some "";
        Some "";
        Some "";
        Some "";
        Some "";
        Some "";
        Some "" ]));
    (* src/ef-mrp.c:117 *)
    ("mrp_topo", (Some "MRP Topology Change frame",
      [ Some "";
        Some "";
        Some "";
        Some "";
        Some "";
        Some "";
        Some "";
        Some "";
        Some "";
        Some "";
        Some "";
        Some "";
        Some "" ]));
    (* src/ef-mrp.c:176 *)
    ("mrp_lnk", (Some "MRP Link Change frame",
      [ Some "";
        Some "";
        Some "";
        Some "";
        Some "";
        Some "";
        Some "";
        Some "";
        Some "";
        Some "";
        Some "";
        Some "";
        Some "";
        Some "" ]));
    (* src/ef-mrp.c:250 *)
    ("mrp_prop_nack", (Some "MRP Propagate/MgrNAck frame",
      [ Some "";
        Some "";
        Some "";
        Some "";
        Some "";
        Some "";
        Some "";
        Some "";
        Some "";
        Some "";
        Some "";
        Some "";
        Some "";
        Some "";
        Some "";
        Some "";
        Some "";
        Some "";
        Some "" ]));
    (* src/ef-oam.c:65 *)
    ("oam-ccm", (Some "OAM-CCM frame",
      [ Some "";
        Some "";
        Some "";
        Some "";
        Some "";
        Some "";
        Some "";
        Some "";
        Some "";
        Some "";
        Some "";
        Some "";
        Some "";
        Some "";
        Some "";
        Some "";
        Some "" ]));
    (* src/ef-oam.c:118 *)
    ("oam-laps", (Some "OAM-LAPS frame",
      [ Some "";
        Some "";
        Some "";
        Some "";
        Some "";
        Some "";
        Some "";
        Some "";
        Some "";
        Some "";
        Some "";
        Some "" ]));
    (* src/ef-oam.c:171 *)
    ("oam-lb", (Some "OAM-LB frame",
      [ Some "";
        Some "";
        Some "";
        Some "";
        Some "";
        Some "";
        Some "";
        Some "";
        Some "";
        Some "";
        Some "";
        Some "" ]));
    (* src/ef-oam.c:209 *)
    ("oam-lt", (Some "OAM-LT frame",
      [ Some "";
        Some "";
        Some "";
        Some "";
        Some "";
        Some "";
        Some "" ]));
    (* src/ef-oam.c:259 *)
    ("oam-raps", (Some "OAM-RAPS frame",
      [ Some "";
        Some "";
        Some "";
        Some "";
        Some "";
        Some "";
        Some "";
        Some "";
        Some "";
        Some "";
        Some "" ]));
    (* src/ef-ptp.c:126 *)
    ("ptp-sync", (Some "PTP-SYNC frame",
      [ Some "";
        Some "";
        Some "";
        Some "";
        Some "";
        Some "";
        Some "";
        Some "";
        Some "";
        Some "";
        Some "";
        Some "";
        Some "";
        Some "";
        Some "";
        Some "";
        Some "" ]));
    (* src/ef-ptp.c:209 *)
    ("ptp-follow-up", (Some "PTP-FOLLOW-UP frame",
      [ Some "";
        Some "";
        Some "";
        Some "";
        Some "";
        Some "";
        Some "";
        Some "";
        Some "";
        Some "";
        Some "";
        Some "";
        Some "";
        Some "";
        Some "";
        Some "";
        Some "" ]));
    (* src/ef-ptp.c:292 *)
    ("ptp-request", (Some "PTP-REQUEST frame",
      [ Some "";
        Some "";
        Some "";
        Some "";
        Some "";
        Some "";
        Some "";
        Some "";
        Some "";
        Some "";
        Some "";
        Some "";
        Some "";
        Some "";
        Some "";
        Some "";
        Some "" ]));
    (* src/ef-ptp.c:367 *)
    ("ptp-response", (Some "PTP-RESPONSE frame",
      [ Some "";
        Some "";
        Some "";
        Some "";
        Some "";
        Some "";
        Some "";
        Some "";
        Some "";
        Some "";
        Some "";
        Some "";
        Some "";
        Some "";
        Some "";
        Some "";
        Some "";
        Some "";
        Some "" ]));
    (* src/ef-ptp.c:445 *)
    ("ptp-peer-request", (Some "PTP-PEER-REQUEST frame",
      [ Some "";
        Some "";
        Some "";
        Some "";
        Some "";
        Some "";
        Some "";
        Some "";
        Some "";
        Some "";
        Some "";
        Some "";
        Some "";
        Some "";
        Some "";
        Some "" ]));
    (* src/ef-ptp.c:520 *)
    ("ptp-peer-response", (Some "PTP-PEEER-RESPONSE frame",
      [ Some "";
        Some "";
        Some "";
        Some "";
        Some "";
        Some "";
        Some "";
        Some "";
        Some "";
        Some "";
        Some "";
        Some "";
        Some "";
        Some "";
        Some "";
        Some "";
        Some "";
        Some "";
        Some "" ]));
    (* src/ef-ptp.c:595 *)
    ("ptp-peer-response-follow-up", (Some "PTP-PEEER-RESPONSE-FOLLOW-UP frame",
      [ Some "";
        Some "";
        Some "";
        Some "";
        Some "";
        Some "";
        Some "";
        Some "";
        Some "";
        Some "";
        Some "";
        Some "";
        Some "";
        Some "";
        Some "";
        Some "";
        Some "";
        Some "";
        Some "" ]));
    (* src/ef-ptp.c:690 *)
    ("ptp-announce", (Some "PTP-ANNOUNCE frame",
      [ Some "";
        Some "";
        Some "";
        Some "";
        Some "";
        Some "";
        Some "";
        Some "";
        Some "";
        Some "";
        Some "";
        Some "";
        Some "";
        Some "";
        Some "";
        Some "";
        Some "";
        Some "";
        Some "";
        Some "";
        Some "";
        Some "";
        Some "";
        Some "";
        Some "";
        Some "" ]));
    (* src/ef-ptp.c:733 *)
    ("ptp-tlv-org", (Some "PTP-TLV-ORG frame",
      [ Some "";
        Some "";
        Some "";
        Some "";
        Some "";
        Some "";
        Some "";
        Some "";
        Some "";
        Some "" ]));
    (* src/ef-ptp.c:752 *)
    ("ptp-tlv-path", (Some "PTP-TLV-PATH frame",
      [ Some "";
        Some "" ]));
    (* src/ef-profinet.c:115 *)
    ("profinet-rtc", (Some "Profinet RTC",
      [ Some "Profinet frame ID. Common used ranges:
                                0x0000-0x00FF Time-aware==1. RT_CLASS_STREAM    Multicast CRs
                                0x0100-0x04FF Time-aware==1. RT_CLASS_STREAM    Unicast (input or output CRs)
                                0x0100-0x06FF Time-aware==0. RT_CLASS_3 (RED)   Uni/multi-cast non-redundant
                                0x0700-0x0FFF Time-aware==0. RT_CLASS_3 (RED)   Uni/multi-cast redundant
                                0x8000-0xBBFF                RT_CLASS_1 (GREEN) Unicast non-redundant
                                0xBC00-0xBFFF                RT_CLASS_1 (GREEN) Multicast non-redundant
                                See IEC CDV 61158-6-10 section 4.2.2.6 for more details";
        Some "Variable length data. The encoding of this data depends on configuration";
        Some "Cycle counter";
        Some "Data status: Ignore bit. Default 0";
        Some "Data status: Reserved bit 2. Default 0";
        Some "Data status: station problem idendicator (default 1, which means no problem)";
        Some "Data status: provider state Run:1/Stop:0. Default 1";
        Some "Data status: Reserved bit 1. Default 0";
        Some "Data status: data valid. Default 1";
        Some "Data status: Redundancy bit. Default 0";
        Some "Data status: State Primary:1/Backup:0. Default 1";
        Some "" ]));
    (* src/ef-opcua.c:85 *)
    ("opc-ua", (Some "OPC UA PubSub",
      [ Some "UADPFlags: ExtendedFlags1 enabled";
        Some "UADPFlags: PayloadHeader disabled";
        Some "UADPFlags: GroupHeader enabled";
        Some "UADPFlags: PublisherId enabled";
        Some "UADPVersion";
        Some "ExtendedFlags1: ExtendedFlags2 disabled";
        Some "ExtendedFlags1: PicoSeconds disabled";
        Some "ExtendedFlags1: Timestamp disabled";
        Some "ExtendedFlags1: Security disabled";
        Some "ExtendedFlags1: DataSetClassId disabled";
        Some "ExtendedFlags1: PublisherId type";
        Some "PublisherId (little-endian)";
        Some "GroupFlags: Reserved";
        Some "GroupFlags: SequenceNumber enabled";
        Some "GroupFlags: NetworkMessageNumber enabled";
        Some "GroupFlags: GroupVersion enabled";
        Some "GroupFlags: WriterGroupId enabled";
        Some "WriterGroupId (little-endian)";
        Some "GroupVersion";
        Some "NetworkMessageNumber";
        Some "SequenceNumber" ]));
    (* src/ef-vlan.c:94 *)
    ("prp", (Some "PRP Redundancy Check Trailer",
      [ Some "Sequence Number";
        Some "LAN ID";
        Some "LSDU size";
        Some "PRP suffix" ]));
    (* src/ef-vlan.c:118 *)
    ("htag", (Some "HSR Tag",
      [ Some "Path ID";
        Some "LSDU size";
        Some "Sequence Number";
        Some "EtherType" ]));
    (* src/ef-coap.c:157 *)
    ("coap", (Some "Constrained Application Protocol",
      [ Some "CoAP version number, has to be 1";
        Some "message type: Confirmable (0), Non-confirmable (1), Acknowledgement (2), or Reset (3)";
        Some "Token length, 0-8 bytes";
        Some "message code, split into a 3-bit class and a 5-bit detail e.g. 0.01 (GET) or 4.04 (Not found)";
        Some "Used to detect message duplication and to match messages";
        Some "Token length must not greater than 8 bytes. (optional)" ]));
    (* src/ef-coap.c:288 *)
    ("coap-opt", (Some "Constrained Application Protocol Options, several fields allowed. (optional)",
      [ Some "CoAP Option Number";
        Some "CoAP Option Value" ]));
    (* src/ef-coap.c:309 *)
    ("coap-parms", (Some "Constrained Application Protocol Parameters. (optional)",
      [ Some "CoAP Parameter field." ]));
    (* src/ef-sv.c:75 *)
    ("sv", (Some "PRP & HSR Supervision Frames",
      [ Some "SupPath (0)";
        Some "SupVersion (1)";
        Some "Sequence Number";
        Some "TLV1.Type (20 = PRP-DD, 21 = PRP-DA, 23 = HSR)";
        Some "TLV1.Length (6)";
        Some "TLV1.MacAddress (MAC of DANP/DANH)";
        Some "TLV2.Type (30). Don't specify if not a RedBox SV frame";
        Some "TLV2.Length (6)";
        Some "TLV2.RedBoxMacAddress";
        Some "TLV0.Type (0)";
        Some "TLV0.Length (0)" ]))
  ]%string.

(** src/ef-args.c:89-167 *)
Definition usage_text : string :=
  "Usage: ef [options] <command> args [<command> args]...

The ef (easy frame) tool allow to easily transmit frames, and
optionally specify what frames it expect to receive.

Options:
  -v                    Print version.
  -h                    Top level help message.
  -t <timeout-in-ms>    When listening on an interface (rx),
     When listening on an interface (rx), the tool will always
     listen during the entire timeout period. This is needed,
     as we must also check that no frames are received during
     the test.  Default is 100ms.

  -c <if>,[<snaplen>],[<sync>],[<file>],[cnt]
     Use tcpdump to capture traffic on an interface while the
     test is running. If file is not specified, then it will
     default to './<if>.pcap'
     tcpdump will be invoked with the following options:
     tcpdump -i <if> [-s <snaplen>] [-j <sync>] -w <file> -c <cnt>


Valid commands:
  tx: Transmit a frame on a interface. Syntax:
  tx <interface> FRAME | help

  rx: Specify a frame which is expected to be received. If no 
      frame is specified, then the expectation is that no
      frames are received on the interface. Syntax:
  rx <interface> [FRAME] | help

  hex: Print a frame on stdout as a hex string. Syntax:
  hex FRAME

  name: Specify a frame, and provide a name (alias) for it.
        This alias can be used other places instead of the
        complete frame specification. Syntax:
  name <name> FRAME-SPEC | help

  pcap: Write a frame to a pcap file (appending if the file
  exists already). Syntax:
  pcap <file> FRAME | help

Where FRAME is either a frame specification of a named frame.
Syntax: FRAME ::= FRAME-SPEC | name <name>

FRAME-SPEC is a textual specification of a frame.
Syntax: FRAME-SPEC ::= [HDR-NAME [<HDR-FIELD> <HDR-FIELD-VAL>]...]...
        HDR-NAME ::= eth|stag|ctag|arp|ipv4|udp

Examples:
  ef tx eth0 eth dmac ::1 smac ::2 stag vid 0x100 ipv4 dip 1 udp

  ef name f1 eth dmac ff:ff:ff:ff:ff:ff smac ::1\
     rx eth0 name f1\
     tx eth1 name f1

A complete header or a given field in a header can be ignored by
using the 'ign' or 'ignore' flag.
Example:
  To ignore the ipv4 header completly:
  ef hex eth dmac 1::2 smac 3::4 ipv4 ign udp

  To ignore the ipv4 everything in the ipv4 header except the sip:
  ef hex eth dmac 1::2 smac 3::4 ipv4 ign sip 1.2.3.4 udp

  To ignore the sip field in ipv4:
  ef hex eth dmac 1::2 smac 3::4 ipv4 sip ign udp

A frame can be repeated to utilize up to line speed bandwith (>512 byte frames)
using the 'rep' or 'repeat' flag.
Example:
   Send a frame 1 million times:
   ef tx eth0 rep 1000000 eth dmac ::1 smac ::2
   Note that the repeat flag must follow the tx <interface> key-word
   Results must be viewed through the PC or DUT interface counters, i.e. outside of 'ef'

"%string.
