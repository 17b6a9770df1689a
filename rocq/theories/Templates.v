(** GENERATED by tools/gen_templates.py from the tables of /repo/src -- do not edit.

    For every [static field_t X[]] the fields in order (name, width, explicit
    offset, parser), for every [static hdr_t HDR_X] the header before
    initialisation and then the header after the calls of def_offset and
    def_val in its init function.  [rx_match_skip] is nowhere initialised, so it
    is false; a member that the table does not mention is 0 / NULL.  The help
    texts are left out. *)

From Verif Require Export FieldParsers.

(** A field as the tables give it. *)
Definition fld (n : string) (w o : Z) (p : field_parser) : field :=
  MkField n false w o None None p.

(** def_val applied to a header under construction. *)
Definition dv (n v : string) (h : out hdr) : out hdr := x <- h;; def_val n v x.

(** The header a (successful) construction yields. *)
Definition the_hdr (o : out hdr) : hdr :=
  match o with
  | Ret h => h
  | Crash _ => MkHdr "" 0 0 [] FL_none HP_none
  end.


(** ** src/ef-ifh.c *)

(** src/ef-ifh.c:4-11 *)
Definition SP_OC1_FIELDS : list field :=
  [ fld "et" 16 0 FP_default (* 5 *);
    fld "id" 16 0 FP_default (* 8 *) ].

(** src/ef-ifh.c:21-34 *)
Definition LP_OC1_FIELDS : list field :=
  [ fld "dmac" 48 0 FP_default (* 22 *);
    fld "smac" 48 0 FP_default (* 25 *);
    fld "et" 16 0 FP_default (* 28 *);
    fld "id" 16 0 FP_default (* 31 *) ].

(** src/ef-ifh.c:44-117 *)
Definition IFH_OC1_FIELDS : list field :=
  [ fld "bypass" 1 0 FP_default (* 45 *);
    fld "b1-rew-mac" 1 0 FP_default (* 51 *);
    fld "b1-rew-op" 9 0 FP_default (* 54 *);
    fld "b0-masq" 1 1 FP_default (* 60 *);
    fld "b0-masq-port" 4 2 FP_default (* 64 *);
    fld "rew-val" 32 0 FP_default (* 69 *);
    fld "res1" 17 0 FP_default (* 72 *);
    fld "dest" 12 0 FP_default (* 75 *);
    fld "res2" 9 0 FP_default (* 78 *);
    fld "src-port" 4 0 FP_default (* 81 *);
    fld "res3" 2 0 FP_default (* 84 *);
    fld "trfm-timer" 4 0 FP_default (* 87 *);
    fld "res4" 6 0 FP_default (* 90 *);
    fld "dp" 1 0 FP_default (* 93 *);
    fld "pop-cnt" 2 0 FP_default (* 96 *);
    fld "cpuq" 8 0 FP_default (* 99 *);
    fld "qos-class" 3 0 FP_default (* 102 *);
    fld "tag-type" 1 0 FP_default (* 105 *);
    fld "pcp" 3 0 FP_default (* 108 *);
    fld "dei" 1 0 FP_default (* 111 *);
    fld "vid" 12 0 FP_default (* 114 *) ].

(** src/ef-ifh.c:127-191 *)
Definition EFH_OC1_FIELDS : list field :=
  [ fld "res1" 1 0 FP_default (* 128 *);
    fld "rew-mac" 1 0 FP_default (* 131 *);
    fld "rew-op" 9 0 FP_default (* 134 *);
    fld "rew-val" 32 0 FP_default (* 137 *);
    fld "llen" 6 0 FP_default (* 140 *);
    fld "wlen" 8 0 FP_default (* 143 *);
    fld "res2" 14 0 FP_default (* 146 *);
    fld "isdx" 10 0 FP_default (* 149 *);
    fld "src-port" 4 0 FP_default (* 152 *);
    fld "acl-id" 6 0 FP_default (* 155 *);
    fld "res3" 1 0 FP_default (* 158 *);
    fld "sflow-id" 4 0 FP_default (* 161 *);
    fld "acl-hit" 1 0 FP_default (* 164 *);
    fld "dp" 1 0 FP_default (* 167 *);
    fld "lrn-flags" 2 0 FP_default (* 170 *);
    fld "cpuq" 8 0 FP_default (* 173 *);
    fld "qos-class" 3 0 FP_default (* 176 *);
    fld "tag-type" 1 0 FP_default (* 179 *);
    fld "pcp" 3 0 FP_default (* 182 *);
    fld "dei" 1 0 FP_default (* 185 *);
    fld "vid" 12 0 FP_default (* 188 *) ].

(** src/ef-ifh.c:201-214 *)
Definition SP_JR2_FIELDS : list field :=
  [ fld "dmac" 48 0 FP_default (* 202 *);
    fld "smac" 48 0 FP_default (* 205 *);
    fld "et" 16 0 FP_default (* 208 *);
    fld "id" 16 0 FP_default (* 211 *) ].

(** src/ef-ifh.c:224-249 *)
Definition LP_JR2_FIELDS : list field :=
  [ fld "dmac" 48 0 FP_default (* 225 *);
    fld "smac" 48 0 FP_default (* 228 *);
    fld "tpid" 16 0 FP_default (* 231 *);
    fld "pcp" 3 0 FP_default (* 234 *);
    fld "dei" 1 0 FP_default (* 237 *);
    fld "vid" 12 0 FP_default (* 240 *);
    fld "et" 16 0 FP_default (* 243 *);
    fld "id" 16 0 FP_default (* 246 *) ].

(** src/ef-ifh.c:259-645 *)
Definition IFH_JR2_FIELDS : list field :=
  [ fld "ts" 32 0 FP_default (* 260 *);
    fld "de-rsv1" 2 0 FP_default (* 266 *);
    fld "de-rt-fwd" 1 0 FP_default (* 269 *);
    fld "de-swap-mac" 1 0 FP_default (* 272 *);
    fld "de-tag-tpid" 2 0 FP_default (* 275 *);
    fld "de-rsv2" 2 0 FP_default (* 278 *);
    fld "de-gen-idx" 10 0 FP_default (* 281 *);
    fld "de-gen-idx-mode" 1 0 FP_default (* 284 *);
    fld "de-prot-active" 1 0 FP_default (* 287 *);
    fld "de-pdu-w16-offset" 6 0 FP_default (* 290 *);
    fld "de-pdu-type" 3 0 FP_default (* 293 *);
    fld "de-cl-rslt" 16 0 FP_default (* 296 *);
    fld "de-mpls-ttl" 8 0 FP_default (* 299 *);
    fld "de-mpls-sbit" 1 0 FP_default (* 302 *);
    fld "de-mpls-tc" 3 0 FP_default (* 305 *);
    fld "de-type-after-pop" 2 0 FP_default (* 308 *);
    fld "de-w16-pop-cnt" 5 0 FP_default (* 311 *);
    fld "di-rsv1" 11 32 FP_default (* 317 *);
    fld "di-dst-port-mask" 53 43 FP_default (* 321 *);
    fld "du-rsv1" 9 32 FP_default (* 328 *);
    fld "du-erleg" 7 41 FP_default (* 332 *);
    fld "du-next-hop-dmac" 48 48 FP_default (* 336 *);
    fld "dm-rsv1" 40 32 FP_default (* 343 *);
    fld "dm-l3mc-grp-idx" 10 72 FP_default (* 347 *);
    fld "dm-erleg" 7 82 FP_default (* 351 *);
    fld "dm-copy-cnt" 7 89 FP_default (* 355 *);
    fld "v-rsv1" 1 0 FP_default (* 362 *);
    fld "vm0-rsv1" 11 0 FP_default (* 368 *);
    fld "vm0-ac" 4 0 FP_default (* 371 *);
    fld "vm1-cosid" 3 97 FP_default (* 377 *);
    fld "vm1-isdx" 12 100 FP_default (* 381 *);
    fld "v-rsv2" 2 0 FP_default (* 386 *);
    fld "vq-cl-dp" 2 0 FP_default (* 392 *);
    fld "vq-sp" 1 0 FP_default (* 395 *);
    fld "vq-cl-qos" 3 0 FP_default (* 398 *);
    fld "vq-ingr-drop-mode" 1 0 FP_default (* 401 *);
    fld "v-rsv3" 1 0 FP_default (* 405 *);
    fld "vg-rsv1" 1 0 FP_default (* 411 *);
    fld "vg-ttl" 5 0 FP_default (* 414 *);
    fld "vg-lrn-mode" 1 0 FP_default (* 417 *);
    fld "vg-fwd-mode" 3 0 FP_default (* 420 *);
    fld "v-rsv4" 1 0 FP_default (* 424 *);
    fld "vdl-dst-port-type" 1 0 FP_default (* 430 *);
    fld "vdl-dst-upsid" 5 0 FP_default (* 433 *);
    fld "vdl-dst-pn" 5 0 FP_default (* 436 *);
    fld "vdp-rsv1" 1 133 FP_default (* 442 *);
    fld "vdp-dst-upsid" 5 134 FP_default (* 446 *);
    fld "vdp-dst-pn" 5 139 FP_default (* 450 *);
    fld "vdm-rsv1" 1 133 FP_default (* 457 *);
    fld "vdm-mc-idx" 10 134 FP_default (* 461 *);
    fld "vdu-rsv1" 1 133 FP_default (* 468 *);
    fld "vdu-dst-upsid" 5 134 FP_default (* 472 *);
    fld "vdu-rsv2" 1 139 FP_default (* 476 *);
    fld "vdu-dst-pn" 4 140 FP_default (* 480 *);
    fld "vda-rsv1" 1 133 FP_default (* 487 *);
    fld "vda-ttl-keep" 1 134 FP_default (* 491 *);
    fld "vda-rsv2" 5 135 FP_default (* 495 *);
    fld "vda-dst-pn" 4 140 FP_default (* 499 *);
    fld "vdg-rew-cmd" 11 133 FP_default (* 506 *);
    fld "vt-cl-pcp" 3 0 FP_default (* 513 *);
    fld "vt-cl-dei" 1 0 FP_default (* 516 *);
    fld "vt-cl-vid" 12 0 FP_default (* 519 *);
    fld "vt-was-tagged" 1 0 FP_default (* 522 *);
    fld "vt-tag-type" 1 0 FP_default (* 525 *);
    fld "vt-ingr-port-type" 2 0 FP_default (* 528 *);
    fld "vs-src-port-type" 1 0 FP_default (* 534 *);
    fld "vs-src-addr-mode" 1 0 FP_default (* 537 *);
    fld "vs10-src-upsid" 5 0 FP_default (* 543 *);
    fld "vs10-rsv1" 1 0 FP_default (* 546 *);
    fld "vs10-src-intpn" 4 0 FP_default (* 549 *);
    fld "vs00-src-upsid" 5 166 FP_default (* 555 *);
    fld "vs00-src-upspn" 5 171 FP_default (* 559 *);
    fld "vs01-src-glagid" 10 166 FP_default (* 566 *);
    fld "f-afi-inj" 1 0 FP_default (* 573 *);
    fld "f-rsv1" 1 0 FP_default (* 576 *);
    fld "f-es0-isdx-key-ena" 1 0 FP_default (* 579 *);
    fld "f-rsv2" 1 0 FP_default (* 582 *);
    fld "f-vstax-avail" 1 0 FP_default (* 585 *);
    fld "f-update-fcs" 1 0 FP_default (* 588 *);
    fld "f-rsv3" 1 0 FP_default (* 591 *);
    fld "f-dst-mode" 3 0 FP_default (* 594 *);
    fld "f-sflow-marking" 1 0 FP_default (* 597 *);
    fld "f-aged" 1 0 FP_default (* 600 *);
    fld "f-rx-mirror" 1 0 FP_default (* 603 *);
    fld "f-mirror-probe" 2 0 FP_default (* 606 *);
    fld "f-src-port" 6 0 FP_default (* 609 *);
    fld "f-do-not-rew" 1 0 FP_default (* 612 *);
    fld "m-pipeline-act" 3 0 FP_default (* 618 *);
    fld "m-pipeline-pt" 5 0 FP_default (* 621 *);
    fld "m-cpu-mask" 8 0 FP_default (* 624 *);
    fld "t-pop-cnt" 2 0 FP_default (* 630 *);
    fld "q-transp-dscp" 1 0 FP_default (* 636 *);
    fld "q-update-dscp" 1 0 FP_default (* 639 *);
    fld "q-dscp" 6 0 FP_default (* 642 *) ].

(** src/ef-ifh.c:655-1044 *)
Definition IFH_FA_FIELDS : list field :=
  [ fld "rsv" 16 0 FP_default (* 656 *);
    fld "ts" 40 0 FP_default (* 659 *);
    fld "de-rleg-mode" 2 0 FP_default (* 665 *);
    fld "de-rleg" 10 0 FP_default (* 668 *);
    fld "de-rsv1" 1 0 FP_default (* 671 *);
    fld "de-rt-fwd" 1 0 FP_default (* 674 *);
    fld "de-swap-mac" 1 0 FP_default (* 677 *);
    fld "de-tag-tpid" 2 0 FP_default (* 680 *);
    fld "de-gvid" 12 0 FP_default (* 683 *);
    fld "de-xvid-ext" 1 0 FP_default (* 686 *);
    fld "de-prot-active" 1 0 FP_default (* 689 *);
    fld "de-pdu-w16-offset" 6 0 FP_default (* 692 *);
    fld "de-pdu-type" 4 0 FP_default (* 695 *);
    fld "de-cl-rslt" 16 0 FP_default (* 698 *);
    fld "de-mpls-ttl" 9 0 FP_default (* 701 *);
    fld "de-mpls-sbit" 1 0 FP_default (* 704 *);
    fld "de-mpls-tc" 3 0 FP_default (* 707 *);
    fld "de-action-after-pop" 1 0 FP_default (* 710 *);
    fld "de-type-after-pop" 2 0 FP_default (* 713 *);
    fld "de-w16-pop-cnt" 6 0 FP_default (* 716 *);
    fld "du-rsv1" 22 56 FP_default (* 722 *);
    fld "du-erleg" 9 78 FP_default (* 726 *);
    fld "du-next-hop-dmac" 48 87 FP_default (* 730 *);
    fld "dm-rsv1" 50 56 FP_default (* 737 *);
    fld "dm-l3mc-grp-idx" 11 106 FP_default (* 741 *);
    fld "dm-erleg" 9 117 FP_default (* 745 *);
    fld "dm-copy-cnt" 9 126 FP_default (* 749 *);
    fld "v-rsv1" 1 0 FP_default (* 756 *);
    fld "vm0-rsv1" 11 0 FP_default (* 762 *);
    fld "vm0-ac" 4 0 FP_default (* 765 *);
    fld "vm1-cosid" 3 136 FP_default (* 771 *);
    fld "vm1-isdx" 12 139 FP_default (* 775 *);
    fld "v-rsv2" 2 0 FP_default (* 780 *);
    fld "vq-cl-dp" 2 0 FP_default (* 786 *);
    fld "vq-sp" 1 0 FP_default (* 789 *);
    fld "vq-cl-qos" 3 0 FP_default (* 792 *);
    fld "vq-ingr-drop-mode" 1 0 FP_default (* 795 *);
    fld "v-rsv3" 1 0 FP_default (* 799 *);
    fld "vg-rsv1" 1 0 FP_default (* 805 *);
    fld "vg-ttl" 5 0 FP_default (* 808 *);
    fld "vg-lrn-mode" 1 0 FP_default (* 811 *);
    fld "vg-fwd-mode" 3 0 FP_default (* 814 *);
    fld "v-rsv4" 1 0 FP_default (* 818 *);
    fld "vdl-dst-port-type" 1 0 FP_default (* 824 *);
    fld "vdl-dst-upsid" 5 0 FP_default (* 827 *);
    fld "vdl-dst-pn" 5 0 FP_default (* 830 *);
    fld "vdp-rsv1" 1 172 FP_default (* 836 *);
    fld "vdp-dst-upsid" 5 173 FP_default (* 840 *);
    fld "vdp-dst-pn" 5 178 FP_default (* 844 *);
    fld "vdm-mc-idx" 11 172 FP_default (* 851 *);
    fld "vdu-rsv1" 1 172 FP_default (* 858 *);
    fld "vdu-dst-upsid" 5 173 FP_default (* 862 *);
    fld "vdu-rsv2" 1 178 FP_default (* 866 *);
    fld "vdu-dst-pn" 4 179 FP_default (* 870 *);
    fld "vda-rsv1" 1 172 FP_default (* 877 *);
    fld "vda-ttl-keep" 1 173 FP_default (* 881 *);
    fld "vda-rsv2" 5 174 FP_default (* 885 *);
    fld "vda-dst-pn" 4 179 FP_default (* 889 *);
    fld "vdg-rew-cmd" 11 172 FP_default (* 896 *);
    fld "vt-cl-pcp" 3 0 FP_default (* 903 *);
    fld "vt-cl-dei" 1 0 FP_default (* 906 *);
    fld "vt-cl-vid" 12 0 FP_default (* 909 *);
    fld "vt-was-tagged" 1 0 FP_default (* 912 *);
    fld "vt-tag-type" 1 0 FP_default (* 915 *);
    fld "vt-ingr-port-type" 2 0 FP_default (* 918 *);
    fld "vs-src-port-type" 1 0 FP_default (* 924 *);
    fld "vs-src-addr-mode" 1 0 FP_default (* 927 *);
    fld "vs10-src-upsid" 5 0 FP_default (* 933 *);
    fld "vs10-rsv1" 1 0 FP_default (* 936 *);
    fld "vs10-src-intpn" 4 0 FP_default (* 939 *);
    fld "vs00-src-upsid" 5 205 FP_default (* 945 *);
    fld "vs00-src-upspn" 5 210 FP_default (* 949 *);
    fld "vs01-src-glagid" 10 205 FP_default (* 956 *);
    fld "f-afi-inj" 1 0 FP_default (* 963 *);
    fld "f-rsv1" 1 0 FP_default (* 966 *);
    fld "f-es0-isdx-key-ena" 1 0 FP_default (* 969 *);
    fld "f-rsv2" 1 0 FP_default (* 972 *);
    fld "f-vstax-avail" 1 0 FP_default (* 975 *);
    fld "f-update-fcs" 1 0 FP_default (* 978 *);
    fld "f-rsv3" 1 0 FP_default (* 981 *);
    fld "f-dst-mode" 2 0 FP_default (* 984 *);
    fld "f-sflow-id" 7 0 FP_default (* 987 *);
    fld "f-aged" 1 0 FP_default (* 990 *);
    fld "f-rx-mirror" 1 0 FP_default (* 993 *);
    fld "f-mirror-probe" 2 0 FP_default (* 996 *);
    fld "f-src-port" 7 0 FP_default (* 999 *);
    fld "f-do-not-rew" 1 0 FP_default (* 1002 *);
    fld "m-pipeline-act" 3 0 FP_default (* 1008 *);
    fld "m-pipeline-pt" 5 0 FP_default (* 1011 *);
    fld "m-cpu-mask" 8 0 FP_default (* 1014 *);
    fld "t-pop-cnt" 2 0 FP_default (* 1020 *);
    fld "t-push-cnt" 2 0 FP_default (* 1023 *);
    fld "t-rtag-etag-avail" 1 0 FP_default (* 1026 *);
    fld "t-seq-no" 16 0 FP_default (* 1029 *);
    fld "q-transp-dscp" 1 0 FP_default (* 1035 *);
    fld "q-update-dscp" 1 0 FP_default (* 1038 *);
    fld "q-dscp" 6 0 FP_default (* 1041 *) ].

(** src/ef-ifh.c:1054-1489 *)
Definition IFH_LA_FIELDS : list field :=
  [ fld "rsv" 9 0 FP_default (* 1055 *);
    fld "rb-cmd" 5 0 FP_default (* 1059 *);
    fld "rb-src" 1 0 FP_default (* 1062 *);
    fld "rb-tag" 1 0 FP_default (* 1065 *);
    fld "ts" 40 0 FP_default (* 1069 *);
    fld "lbk-fill" 26 16 FP_default (* 1073 *);
    fld "lbk-cos-nxt" 2 42 FP_default (* 1077 *);
    fld "lbk-cos-mask" 8 44 FP_default (* 1081 *);
    fld "lbk-cosid-ena" 1 52 FP_default (* 1085 *);
    fld "lbk-tc-ena" 1 53 FP_default (* 1089 *);
    fld "lbk-pcp-ena" 1 54 FP_default (* 1093 *);
    fld "lbk-outer-pcp-ena" 1 55 FP_default (* 1097 *);
    fld "de-fill" 3 0 FP_default (* 1104 *);
    fld "de-rleg-mode" 2 0 FP_default (* 1107 *);
    fld "de-rleg" 8 0 FP_default (* 1110 *);
    fld "de-first-copy" 1 0 FP_default (* 1113 *);
    fld "de-rt-fwd" 1 0 FP_default (* 1116 *);
    fld "de-swap-mac" 1 0 FP_default (* 1119 *);
    fld "de-tag-tpid" 2 0 FP_default (* 1122 *);
    fld "de-gvid" 12 0 FP_default (* 1125 *);
    fld "de-xvid-ext" 1 0 FP_default (* 1128 *);
    fld "de-prot-active" 1 0 FP_default (* 1131 *);
    fld "de-pdu-w16-offset" 6 0 FP_default (* 1134 *);
    fld "de-pdu-type" 4 0 FP_default (* 1137 *);
    fld "de-match-id" 16 0 FP_default (* 1140 *);
    fld "de-mpls-ttl" 8 0 FP_default (* 1143 *);
    fld "de-mpls-sbit" 1 0 FP_default (* 1146 *);
    fld "de-mpls-tc" 3 0 FP_default (* 1149 *);
    fld "de-action-after-pop" 1 0 FP_default (* 1152 *);
    fld "de-type-after-pop" 2 0 FP_default (* 1155 *);
    fld "de-w16-pop-cnt" 6 0 FP_default (* 1158 *);
    fld "du-fill" 24 56 FP_default (* 1164 *);
    fld "du-erleg" 7 80 FP_default (* 1168 *);
    fld "du-next-hop-dmac" 48 87 FP_default (* 1172 *);
    fld "du-fill" 50 56 FP_default (* 1179 *);
    fld "dm-l3mc-grp-idx" 11 106 FP_default (* 1183 *);
    fld "dm-erleg" 9 117 FP_default (* 1187 *);
    fld "dm-copy-cnt" 9 126 FP_default (* 1191 *);
    fld "v-rsv1" 1 0 FP_default (* 1198 *);
    fld "vm0-rsv1" 11 0 FP_default (* 1204 *);
    fld "vm0-ac" 4 0 FP_default (* 1207 *);
    fld "vm1-cosid" 3 136 FP_default (* 1213 *);
    fld "vm1-isdx" 12 139 FP_default (* 1217 *);
    fld "v-rsv2" 2 0 FP_default (* 1222 *);
    fld "vq-cl-dp" 2 0 FP_default (* 1228 *);
    fld "vq-sp" 1 0 FP_default (* 1231 *);
    fld "vq-cl-qos" 3 0 FP_default (* 1234 *);
    fld "vq-ingr-drop-mode" 1 0 FP_default (* 1237 *);
    fld "v-rsv3" 1 0 FP_default (* 1241 *);
    fld "vg-rsv1" 1 0 FP_default (* 1247 *);
    fld "vg-ttl" 5 0 FP_default (* 1250 *);
    fld "vg-lrn-mode" 1 0 FP_default (* 1253 *);
    fld "vg-fwd-mode" 3 0 FP_default (* 1256 *);
    fld "v-rsv4" 1 0 FP_default (* 1260 *);
    fld "vdl-dst-port-type" 1 0 FP_default (* 1266 *);
    fld "vdl-dst-upsid" 5 0 FP_default (* 1269 *);
    fld "vdl-dst-pn" 5 0 FP_default (* 1272 *);
    fld "vdp-rsv1" 1 172 FP_default (* 1278 *);
    fld "vdp-dst-upsid" 5 173 FP_default (* 1282 *);
    fld "vdp-dst-pn" 5 178 FP_default (* 1286 *);
    fld "vdm-mc-idx" 11 172 FP_default (* 1293 *);
    fld "vdu-rsv1" 1 172 FP_default (* 1300 *);
    fld "vdu-dst-upsid" 5 173 FP_default (* 1304 *);
    fld "vdu-rsv2" 1 178 FP_default (* 1308 *);
    fld "vdu-dst-pn" 4 179 FP_default (* 1312 *);
    fld "vda-rsv1" 1 172 FP_default (* 1319 *);
    fld "vda-ttl-keep" 1 173 FP_default (* 1323 *);
    fld "vda-rsv2" 5 174 FP_default (* 1327 *);
    fld "vda-dst-pn" 4 179 FP_default (* 1331 *);
    fld "vdg-rew-cmd" 11 172 FP_default (* 1338 *);
    fld "vt-cl-pcp" 3 0 FP_default (* 1345 *);
    fld "vt-cl-dei" 1 0 FP_default (* 1348 *);
    fld "vt-cl-vid" 12 0 FP_default (* 1351 *);
    fld "vt-was-tagged" 1 0 FP_default (* 1354 *);
    fld "vt-tag-type" 1 0 FP_default (* 1357 *);
    fld "vt-ingr-port-type" 2 0 FP_default (* 1360 *);
    fld "vs-src-port-type" 1 0 FP_default (* 1366 *);
    fld "vs-src-addr-mode" 1 0 FP_default (* 1369 *);
    fld "vs10-src-upsid" 5 0 FP_default (* 1375 *);
    fld "vs10-rsv1" 1 0 FP_default (* 1378 *);
    fld "vs10-src-intpn" 4 0 FP_default (* 1381 *);
    fld "vs00-src-upsid" 5 205 FP_default (* 1387 *);
    fld "vs00-src-upspn" 5 210 FP_default (* 1391 *);
    fld "vs01-src-glagid" 10 205 FP_default (* 1398 *);
    fld "f-fill" 1 0 FP_default (* 1405 *);
    fld "f-afi-inj" 1 0 FP_default (* 1408 *);
    fld "f-do_lbk" 1 0 FP_default (* 1411 *);
    fld "f-es0-isdx-key-ena" 1 0 FP_default (* 1414 *);
    fld "f-ts-mode" 1 0 FP_default (* 1417 *);
    fld "f-vstax-avail" 1 0 FP_default (* 1420 *);
    fld "f-update-fcs" 1 0 FP_default (* 1423 *);
    fld "f-lrn_all" 1 0 FP_default (* 1426 *);
    fld "f-dst-mode" 2 0 FP_default (* 1429 *);
    fld "f-sflow-id" 7 0 FP_default (* 1432 *);
    fld "f-aged" 1 0 FP_default (* 1435 *);
    fld "f-rx-mirror" 1 0 FP_default (* 1438 *);
    fld "f-mirror-probe" 2 0 FP_default (* 1441 *);
    fld "f-src-port" 6 0 FP_default (* 1444 *);
    fld "f-do-not-rew" 1 0 FP_default (* 1447 *);
    fld "m-pipeline-act" 3 0 FP_default (* 1453 *);
    fld "m-pipeline-pt" 5 0 FP_default (* 1456 *);
    fld "m-inj-dport" 8 0 FP_default (* 1459 *);
    fld "t-pop-cnt" 2 0 FP_default (* 1465 *);
    fld "t-push-cnt" 2 0 FP_default (* 1468 *);
    fld "t-rtag-etag-avail" 1 0 FP_default (* 1471 *);
    fld "t-seq-no" 16 0 FP_default (* 1474 *);
    fld "q-transp-dscp" 1 0 FP_default (* 1480 *);
    fld "q-update-dscp" 1 0 FP_default (* 1483 *);
    fld "q-dscp" 6 0 FP_default (* 1486 *) ].

(** src/ef-ifh.c:1499-1536 *)
Definition IFH_CRCL_FIELDS : list field :=
  [ fld "bypass" 1 0 FP_default (* 1500 *);
    fld "ptp" 2 0 FP_default (* 1503 *);
    fld "ptp-id" 2 0 FP_default (* 1506 *);
    fld "dest" 27 0 FP_default (* 1509 *);
    fld "resv" 2 0 FP_default (* 1512 *);
    fld "pop-cnt" 2 0 FP_default (* 1515 *);
    fld "cpuq" 8 0 FP_default (* 1518 *);
    fld "qos-class" 3 0 FP_default (* 1521 *);
    fld "tag-type" 1 0 FP_default (* 1524 *);
    fld "pcp" 3 0 FP_default (* 1527 *);
    fld "dei" 1 0 FP_default (* 1530 *);
    fld "vid" 12 0 FP_default (* 1533 *) ].

(** src/ef-ifh.c:1546-1589 *)
Definition EFH_CRCL_FIELDS : list field :=
  [ fld "signature" 8 0 FP_default (* 1547 *);
    fld "src-port" 5 0 FP_default (* 1550 *);
    fld "dscp" 6 0 FP_default (* 1553 *);
    fld "acl-id" 8 0 FP_default (* 1556 *);
    fld "sflow-id" 5 0 FP_default (* 1559 *);
    fld "acl-hit" 1 0 FP_default (* 1562 *);
    fld "dp" 1 0 FP_default (* 1565 *);
    fld "lrn-flags" 2 0 FP_default (* 1568 *);
    fld "cpuq" 8 0 FP_default (* 1571 *);
    fld "qos-class" 3 0 FP_default (* 1574 *);
    fld "tag-type" 1 0 FP_default (* 1577 *);
    fld "pcp" 3 0 FP_default (* 1580 *);
    fld "dei" 1 0 FP_default (* 1583 *);
    fld "vid" 12 0 FP_default (* 1586 *) ].

(** src/ef-ifh.c:1599-1736 *)
Definition IFH_MAS_FIELDS : list field :=
  [ fld "ts" 32 0 FP_default (* 1600 *);
    fld "bypass" 1 0 FP_default (* 1603 *);
    fld "masq" 1 0 FP_default (* 1606 *);
    fld "masq-port" 4 0 FP_default (* 1609 *);
    fld "rsv1" 8 0 FP_default (* 1612 *);
    fld "len" 14 32 FP_default (* 1615 *);
    fld "smallc" 2 0 FP_default (* 1619 *);
    fld "rtag48" 1 0 FP_default (* 1622 *);
    fld "rtag" 1 0 FP_default (* 1625 *);
    fld "ct" 1 0 FP_default (* 1628 *);
    fld "rew-cmd" 10 0 FP_default (* 1631 *);
    fld "rew-oam" 1 0 FP_default (* 1634 *);
    fld "pdu-type" 4 0 FP_default (* 1637 *);
    fld "fcs-upd" 1 0 FP_default (* 1640 *);
    fld "dscp" 6 0 FP_default (* 1643 *);
    fld "dp" 1 0 FP_default (* 1646 *);
    fld "rte-inb-upd" 1 0 FP_default (* 1649 *);
    fld "pop-cnt" 2 0 FP_default (* 1652 *);
    fld "etype-offs" 2 0 FP_default (* 1655 *);
    fld "src-port" 4 0 FP_default (* 1658 *);
    fld "rsv2" 5 0 FP_default (* 1661 *);
    fld "seq-no" 16 0 FP_default (* 1664 *);
    fld "tag-type" 1 0 FP_default (* 1667 *);
    fld "pcp" 3 0 FP_default (* 1670 *);
    fld "dei" 1 0 FP_default (* 1673 *);
    fld "vid" 12 0 FP_default (* 1676 *);
    fld "qos-class" 3 0 FP_default (* 1679 *);
    fld "cpuq" 8 0 FP_default (* 1682 *);
    fld "lrn-flags" 2 0 FP_default (* 1685 *);
    fld "sflow-id" 4 0 FP_default (* 1688 *);
    fld "acl-hit" 1 0 FP_default (* 1691 *);
    fld "acl-id" 6 0 FP_default (* 1694 *);
    fld "isdx" 8 0 FP_default (* 1697 *);
    fld "dest" 9 0 FP_default (* 1700 *);
    fld "flood" 2 0 FP_default (* 1703 *);
    fld "seq-op" 2 0 FP_default (* 1706 *);
    fld "ipv" 3 0 FP_default (* 1709 *);
    fld "afi" 1 0 FP_default (* 1712 *);
    fld "aged" 2 0 FP_default (* 1715 *);
    fld "rtp-id" 10 0 FP_default (* 1718 *);
    fld "rtp-subid" 1 0 FP_default (* 1721 *);
    fld "pn-data-status" 8 0 FP_default (* 1724 *);
    fld "pn-tf-status_zero" 1 0 FP_default (* 1727 *);
    fld "pn-cc" 16 0 FP_default (* 1730 *);
    fld "rsv3" 16 0 FP_default (* 1733 *) ].

(** src/ef-ifh.c:13-19 *)
Definition HDR_SP_OC1_0 : hdr :=
  MkHdr "sp-oc1" 0 0 SP_OC1_FIELDS FL_none HP_fields.

(** src/ef-ifh.c:1747-1749 *)
Definition HDR_SP_OC1_init : out hdr :=
    dv "id" "0x000a"
    (dv "et" "0x8880"
    (Ret (def_offset HDR_SP_OC1_0))).

Definition HDR_SP_OC1 : hdr := Eval vm_compute in the_hdr HDR_SP_OC1_init.

Lemma HDR_SP_OC1_ok : HDR_SP_OC1_init = Ret HDR_SP_OC1.
Proof. vm_compute. reflexivity. Qed.

(** src/ef-ifh.c:36-42 *)
Definition HDR_LP_OC1_0 : hdr :=
  MkHdr "lp-oc1" 0 0 LP_OC1_FIELDS FL_none HP_fields.

(** src/ef-ifh.c:1751-1755 *)
Definition HDR_LP_OC1_init : out hdr :=
    dv "id" "0x000a"
    (dv "et" "0x8880"
    (dv "smac" "ff:ff:ff:ff:ff:ff"
    (dv "dmac" "ff:ff:ff:ff:ff:ff"
    (Ret (def_offset HDR_LP_OC1_0))))).

Definition HDR_LP_OC1 : hdr := Eval vm_compute in the_hdr HDR_LP_OC1_init.

Lemma HDR_LP_OC1_ok : HDR_LP_OC1_init = Ret HDR_LP_OC1.
Proof. vm_compute. reflexivity. Qed.

(** src/ef-ifh.c:119-125 *)
Definition HDR_IFH_OC1_0 : hdr :=
  MkHdr "ifh-oc1" 0 0 IFH_OC1_FIELDS FL_none HP_fields.

(** src/ef-ifh.c:1757-1757 *)
Definition HDR_IFH_OC1_init : out hdr :=
    Ret (def_offset HDR_IFH_OC1_0).

Definition HDR_IFH_OC1 : hdr := Eval vm_compute in the_hdr HDR_IFH_OC1_init.

Lemma HDR_IFH_OC1_ok : HDR_IFH_OC1_init = Ret HDR_IFH_OC1.
Proof. vm_compute. reflexivity. Qed.

(** src/ef-ifh.c:193-199 *)
Definition HDR_EFH_OC1_0 : hdr :=
  MkHdr "efh-oc1" 0 0 EFH_OC1_FIELDS FL_none HP_fields.

(** src/ef-ifh.c:1758-1758 *)
Definition HDR_EFH_OC1_init : out hdr :=
    Ret (def_offset HDR_EFH_OC1_0).

Definition HDR_EFH_OC1 : hdr := Eval vm_compute in the_hdr HDR_EFH_OC1_init.

Lemma HDR_EFH_OC1_ok : HDR_EFH_OC1_init = Ret HDR_EFH_OC1.
Proof. vm_compute. reflexivity. Qed.

(** src/ef-ifh.c:216-222 *)
Definition HDR_SP_JR2_0 : hdr :=
  MkHdr "sp-jr2" 0 0 SP_JR2_FIELDS FL_none HP_fields.

(** src/ef-ifh.c:1760-1764 *)
Definition HDR_SP_JR2_init : out hdr :=
    dv "id" "0x0009"
    (dv "et" "0x8880"
    (dv "smac" "ff:ff:ff:ff:ff:ff"
    (dv "dmac" "ff:ff:ff:ff:ff:ff"
    (Ret (def_offset HDR_SP_JR2_0))))).

Definition HDR_SP_JR2 : hdr := Eval vm_compute in the_hdr HDR_SP_JR2_init.

Lemma HDR_SP_JR2_ok : HDR_SP_JR2_init = Ret HDR_SP_JR2.
Proof. vm_compute. reflexivity. Qed.

(** src/ef-ifh.c:251-257 *)
Definition HDR_LP_JR2_0 : hdr :=
  MkHdr "lp-jr2" 0 0 LP_JR2_FIELDS FL_none HP_fields.

(** src/ef-ifh.c:1766-1772 *)
Definition HDR_LP_JR2_init : out hdr :=
    dv "id" "0x0009"
    (dv "et" "0x8880"
    (dv "vid" "1"
    (dv "tpid" "0x8100"
    (dv "smac" "ff:ff:ff:ff:ff:ff"
    (dv "dmac" "ff:ff:ff:ff:ff:ff"
    (Ret (def_offset HDR_LP_JR2_0))))))).

Definition HDR_LP_JR2 : hdr := Eval vm_compute in the_hdr HDR_LP_JR2_init.

Lemma HDR_LP_JR2_ok : HDR_LP_JR2_init = Ret HDR_LP_JR2.
Proof. vm_compute. reflexivity. Qed.

(** src/ef-ifh.c:647-653 *)
Definition HDR_IFH_JR2_0 : hdr :=
  MkHdr "ifh-jr2" 0 0 IFH_JR2_FIELDS FL_none HP_fields.

(** src/ef-ifh.c:1774-1775 *)
Definition HDR_IFH_JR2_init : out hdr :=
    dv "v-rsv1" "1"
    (Ret (def_offset HDR_IFH_JR2_0)).

Definition HDR_IFH_JR2 : hdr := Eval vm_compute in the_hdr HDR_IFH_JR2_init.

Lemma HDR_IFH_JR2_ok : HDR_IFH_JR2_init = Ret HDR_IFH_JR2.
Proof. vm_compute. reflexivity. Qed.

(** src/ef-ifh.c:1046-1052 *)
Definition HDR_IFH_FA_0 : hdr :=
  MkHdr "ifh-fa" 0 0 IFH_FA_FIELDS FL_none HP_fields.

(** src/ef-ifh.c:1777-1778 *)
Definition HDR_IFH_FA_init : out hdr :=
    dv "v-rsv1" "1"
    (Ret (def_offset HDR_IFH_FA_0)).

Definition HDR_IFH_FA : hdr := Eval vm_compute in the_hdr HDR_IFH_FA_init.

Lemma HDR_IFH_FA_ok : HDR_IFH_FA_init = Ret HDR_IFH_FA.
Proof. vm_compute. reflexivity. Qed.

(** src/ef-ifh.c:1491-1497 *)
Definition HDR_IFH_LA_0 : hdr :=
  MkHdr "ifh-la" 0 0 IFH_LA_FIELDS FL_none HP_fields.

(** src/ef-ifh.c:1785-1785 *)
Definition HDR_IFH_LA_init : out hdr :=
    Ret (def_offset HDR_IFH_LA_0).

Definition HDR_IFH_LA : hdr := Eval vm_compute in the_hdr HDR_IFH_LA_init.

Lemma HDR_IFH_LA_ok : HDR_IFH_LA_init = Ret HDR_IFH_LA.
Proof. vm_compute. reflexivity. Qed.

(** src/ef-ifh.c:1538-1544 *)
Definition HDR_IFH_CRCL_0 : hdr :=
  MkHdr "ifh-crcl" 0 0 IFH_CRCL_FIELDS FL_none HP_fields.

(** src/ef-ifh.c:1780-1780 *)
Definition HDR_IFH_CRCL_init : out hdr :=
    Ret (def_offset HDR_IFH_CRCL_0).

Definition HDR_IFH_CRCL : hdr := Eval vm_compute in the_hdr HDR_IFH_CRCL_init.

Lemma HDR_IFH_CRCL_ok : HDR_IFH_CRCL_init = Ret HDR_IFH_CRCL.
Proof. vm_compute. reflexivity. Qed.

(** src/ef-ifh.c:1591-1597 *)
Definition HDR_EFH_CRCL_0 : hdr :=
  MkHdr "efh-crcl" 0 0 EFH_CRCL_FIELDS FL_none HP_fields.

(** src/ef-ifh.c:1781-1782 *)
Definition HDR_EFH_CRCL_init : out hdr :=
    dv "signature" "0xff"
    (Ret (def_offset HDR_EFH_CRCL_0)).

Definition HDR_EFH_CRCL : hdr := Eval vm_compute in the_hdr HDR_EFH_CRCL_init.

Lemma HDR_EFH_CRCL_ok : HDR_EFH_CRCL_init = Ret HDR_EFH_CRCL.
Proof. vm_compute. reflexivity. Qed.

(** src/ef-ifh.c:1738-1744 *)
Definition HDR_IFH_MAS_0 : hdr :=
  MkHdr "ifh-mas" 0 0 IFH_MAS_FIELDS FL_none HP_fields.

(** src/ef-ifh.c:1784-1784 *)
Definition HDR_IFH_MAS_init : out hdr :=
    Ret (def_offset HDR_IFH_MAS_0).

Definition HDR_IFH_MAS : hdr := Eval vm_compute in the_hdr HDR_IFH_MAS_init.

Lemma HDR_IFH_MAS_ok : HDR_IFH_MAS_init = Ret HDR_IFH_MAS.
Proof. vm_compute. reflexivity. Qed.


(** ** src/ef-eth.c *)

(** src/ef-eth.c:8-18 *)
Definition ETH_FIELDS : list field :=
  [ fld "dmac" 48 0 FP_default (* 9 *);
    fld "smac" 48 0 FP_default (* 12 *);
    fld "et" 16 0 FP_default (* 15 *) ].

(** src/ef-eth.c:20-27 *)
Definition HDR_ETH_0 : hdr :=
  MkHdr "eth" 0 0 ETH_FIELDS FL_ether HP_fields.

(** src/ef-eth.c:30-33 *)
Definition HDR_ETH_init : out hdr :=
    dv "et" "0xaaaa"
    (dv "smac" "00:00:00:00:00:01"
    (dv "dmac" "ff:ff:ff:ff:ff:ff"
    (Ret (def_offset HDR_ETH_0)))).

Definition HDR_ETH : hdr := Eval vm_compute in the_hdr HDR_ETH_init.

Lemma HDR_ETH_ok : HDR_ETH_init = Ret HDR_ETH.
Proof. vm_compute. reflexivity. Qed.


(** ** src/ef-vlan.c *)

(** src/ef-vlan.c:7-20 *)
Definition STAG_FIELDS : list field :=
  [ fld "pcp" 3 0 FP_default (* 8 *);
    fld "dei" 1 0 FP_default (* 11 *);
    fld "vid" 12 0 FP_default (* 14 *);
    fld "et" 16 0 FP_default (* 17 *) ].

(** src/ef-vlan.c:32-45 *)
Definition CTAG_FIELDS : list field :=
  [ fld "pcp" 3 0 FP_default (* 33 *);
    fld "dei" 1 0 FP_default (* 36 *);
    fld "vid" 12 0 FP_default (* 39 *);
    fld "et" 16 0 FP_default (* 42 *) ].

(** src/ef-vlan.c:57-67 *)
Definition RTAG_FIELDS : list field :=
  [ fld "recv" 16 0 FP_default (* 58 *);
    fld "seqn" 16 0 FP_default (* 61 *);
    fld "et" 16 0 FP_default (* 64 *) ].

(** src/ef-vlan.c:79-92 *)
Definition PRP_RCT_FIELDS : list field :=
  [ fld "seqn" 16 0 FP_default (* 80 *);
    fld "lanid" 4 0 FP_default (* 83 *);
    fld "size" 12 0 FP_default (* 86 *);
    fld "suffix" 16 0 FP_default (* 89 *) ].

(** src/ef-vlan.c:103-116 *)
Definition HSR_TAG_FIELDS : list field :=
  [ fld "pathid" 4 0 FP_default (* 104 *);
    fld "size" 12 0 FP_default (* 107 *);
    fld "seqn" 16 0 FP_default (* 110 *);
    fld "et" 16 0 FP_default (* 113 *) ].

(** src/ef-vlan.c:22-30 *)
Definition HDR_STAG_0 : hdr :=
  MkHdr "stag" 34984 0 STAG_FIELDS FL_ether HP_fields.

(** src/ef-vlan.c:129-129 *)
Definition HDR_STAG_init : out hdr :=
    Ret (def_offset HDR_STAG_0).

Definition HDR_STAG : hdr := Eval vm_compute in the_hdr HDR_STAG_init.

Lemma HDR_STAG_ok : HDR_STAG_init = Ret HDR_STAG.
Proof. vm_compute. reflexivity. Qed.

(** src/ef-vlan.c:47-55 *)
Definition HDR_CTAG_0 : hdr :=
  MkHdr "ctag" 33024 0 CTAG_FIELDS FL_ether HP_fields.

(** src/ef-vlan.c:130-130 *)
Definition HDR_CTAG_init : out hdr :=
    Ret (def_offset HDR_CTAG_0).

Definition HDR_CTAG : hdr := Eval vm_compute in the_hdr HDR_CTAG_init.

Lemma HDR_CTAG_ok : HDR_CTAG_init = Ret HDR_CTAG.
Proof. vm_compute. reflexivity. Qed.

(** src/ef-vlan.c:69-77 *)
Definition HDR_RTAG_0 : hdr :=
  MkHdr "rtag" 61889 0 RTAG_FIELDS FL_ether HP_fields.

(** src/ef-vlan.c:131-131 *)
Definition HDR_RTAG_init : out hdr :=
    Ret (def_offset HDR_RTAG_0).

Definition HDR_RTAG : hdr := Eval vm_compute in the_hdr HDR_RTAG_init.

Lemma HDR_RTAG_ok : HDR_RTAG_init = Ret HDR_RTAG.
Proof. vm_compute. reflexivity. Qed.

(** src/ef-vlan.c:94-101 *)
Definition HDR_PRP_RCT_0 : hdr :=
  MkHdr "prp" 0 0 PRP_RCT_FIELDS FL_none HP_fields.

(** src/ef-vlan.c:132-134 *)
Definition HDR_PRP_RCT_init : out hdr :=
    dv "suffix" "0x88fb"
    (Ret (def_offset HDR_PRP_RCT_0)).

Definition HDR_PRP_RCT : hdr := Eval vm_compute in the_hdr HDR_PRP_RCT_init.

Lemma HDR_PRP_RCT_ok : HDR_PRP_RCT_init = Ret HDR_PRP_RCT.
Proof. vm_compute. reflexivity. Qed.

(** src/ef-vlan.c:118-126 *)
Definition HDR_HSR_TAG_0 : hdr :=
  MkHdr "htag" 35119 0 HSR_TAG_FIELDS FL_ether HP_fields.

(** src/ef-vlan.c:133-133 *)
Definition HDR_HSR_TAG_init : out hdr :=
    Ret (def_offset HDR_HSR_TAG_0).

Definition HDR_HSR_TAG : hdr := Eval vm_compute in the_hdr HDR_HSR_TAG_init.

Lemma HDR_HSR_TAG_ok : HDR_HSR_TAG_init = Ret HDR_HSR_TAG.
Proof. vm_compute. reflexivity. Qed.


(** ** src/ef-arp.c *)

(** src/ef-arp.c:3-31 *)
Definition ARP_FIELDS : list field :=
  [ fld "htype" 16 0 FP_default (* 4 *);
    fld "ptype" 16 0 FP_default (* 7 *);
    fld "hlen" 8 0 FP_default (* 10 *);
    fld "plen" 8 0 FP_default (* 13 *);
    fld "oper" 16 0 FP_default (* 16 *);
    fld "sha" 48 0 FP_default (* 19 *);
    fld "spa" 32 0 FP_default (* 22 *);
    fld "tha" 48 0 FP_default (* 25 *);
    fld "tpa" 32 0 FP_default (* 28 *) ].

(** src/ef-arp.c:33-40 *)
Definition HDR_ARP_0 : hdr :=
  MkHdr "arp" 2054 0 ARP_FIELDS FL_none HP_fields.

(** src/ef-arp.c:43-47 *)
Definition HDR_ARP_init : out hdr :=
    dv "plen" "4"
    (dv "hlen" "6"
    (dv "ptype" "0x0800"
    (dv "htype" "0x0001"
    (Ret (def_offset HDR_ARP_0))))).

Definition HDR_ARP : hdr := Eval vm_compute in the_hdr HDR_ARP_init.

Lemma HDR_ARP_ok : HDR_ARP_init = Ret HDR_ARP.
Proof. vm_compute. reflexivity. Qed.


(** ** src/ef-ipv4.c *)

(** src/ef-ipv4.c:52-92 *)
Definition IPV4_FIELDS : list field :=
  [ fld "ver" 4 0 FP_default (* 53 *);
    fld "ihl" 4 0 FP_default (* 56 *);
    fld "dscp" 6 0 FP_default (* 59 *);
    fld "ecn" 2 0 FP_default (* 62 *);
    fld "len" 16 0 FP_default (* 65 *);
    fld "id" 16 0 FP_default (* 68 *);
    fld "flags" 3 0 FP_default (* 71 *);
    fld "offset" 13 0 FP_default (* 74 *);
    fld "ttl" 8 0 FP_default (* 77 *);
    fld "proto" 8 0 FP_default (* 80 *);
    fld "chksum" 16 0 FP_default (* 83 *);
    fld "sip" 32 0 FP_default (* 86 *);
    fld "dip" 32 0 FP_default (* 89 *) ].

(** src/ef-ipv4.c:94-102 *)
Definition HDR_IPV4_0 : hdr :=
  MkHdr "ipv4" 2048 0 IPV4_FIELDS FL_ipv4 HP_fields.

(** src/ef-ipv4.c:105-108 *)
Definition HDR_IPV4_init : out hdr :=
    dv "ttl" "31"
    (dv "ihl" "5"
    (dv "ver" "4"
    (Ret (def_offset HDR_IPV4_0)))).

Definition HDR_IPV4 : hdr := Eval vm_compute in the_hdr HDR_IPV4_init.

Lemma HDR_IPV4_ok : HDR_IPV4_init = Ret HDR_IPV4.
Proof. vm_compute. reflexivity. Qed.


(** ** src/ef-ipv6.c *)

(** src/ef-ipv6.c:37-65 *)
Definition IPV6_FIELDS : list field :=
  [ fld "ver" 4 0 FP_default (* 38 *);
    fld "dscp" 6 0 FP_default (* 41 *);
    fld "ecn" 2 0 FP_default (* 44 *);
    fld "flow" 20 0 FP_default (* 47 *);
    fld "len" 16 0 FP_default (* 50 *);
    fld "next" 8 0 FP_default (* 53 *);
    fld "hlim" 8 0 FP_default (* 56 *);
    fld "sip" 128 0 FP_default (* 59 *);
    fld "dip" 128 0 FP_default (* 62 *) ].

(** src/ef-ipv6.c:67-75 *)
Definition HDR_IPV6_0 : hdr :=
  MkHdr "ipv6" 34525 0 IPV6_FIELDS FL_ipv6 HP_fields.

(** src/ef-ipv6.c:78-80 *)
Definition HDR_IPV6_init : out hdr :=
    dv "hlim" "31"
    (dv "ver" "6"
    (Ret (def_offset HDR_IPV6_0))).

Definition HDR_IPV6 : hdr := Eval vm_compute in the_hdr HDR_IPV6_init.

Lemma HDR_IPV6_ok : HDR_IPV6_init = Ret HDR_IPV6.
Proof. vm_compute. reflexivity. Qed.


(** ** src/ef-icmp.c *)

(** src/ef-icmp.c:69-82 *)
Definition ICMP_FIELDS : list field :=
  [ fld "type" 8 0 FP_default (* 70 *);
    fld "code" 8 0 FP_default (* 73 *);
    fld "chksum" 16 0 FP_default (* 76 *);
    fld "hd" 32 0 FP_default (* 79 *) ].

(** src/ef-icmp.c:84-92 *)
Definition HDR_ICMP_0 : hdr :=
  MkHdr "icmp" 1 0 ICMP_FIELDS FL_icmp HP_fields.

(** src/ef-icmp.c:95-95 *)
Definition HDR_ICMP_init : out hdr :=
    Ret (def_offset HDR_ICMP_0).

Definition HDR_ICMP : hdr := Eval vm_compute in the_hdr HDR_ICMP_init.

Lemma HDR_ICMP_ok : HDR_ICMP_init = Ret HDR_ICMP.
Proof. vm_compute. reflexivity. Qed.


(** ** src/ef-igmp.c *)

(** src/ef-igmp.c:112-146 *)
Definition IGMP_FIELDS : list field :=
  [ fld "type" 8 0 FP_default (* 113 *);
    fld "max_resp" 8 0 FP_default (* 116 *);
    fld "chksum" 16 0 FP_default (* 119 *);
    fld "ga" 32 0 FP_default (* 122 *);
    fld "qresv" 4 0 FP_default (* 125 *);
    fld "s" 1 0 FP_default (* 128 *);
    fld "qrv" 3 0 FP_default (* 131 *);
    fld "qqic" 8 0 FP_default (* 134 *);
    fld "ns" 16 0 FP_default (* 137 *);
    fld "rresv" 16 0 FP_default (* 140 *);
    fld "ng" 16 0 FP_default (* 143 *) ].

(** src/ef-igmp.c:150-163 *)
Definition IGMPV3_GROUP_FIELDS : list field :=
  [ fld "rec_type" 8 0 FP_default (* 151 *);
    fld "auxlen" 8 0 FP_default (* 154 *);
    fld "ns" 16 0 FP_default (* 157 *);
    fld "ga" 32 0 FP_default (* 160 *) ].

(** src/ef-igmp.c:165-173 *)
Definition HDR_IGMP_0 : hdr :=
  MkHdr "igmp" 2 0 IGMP_FIELDS FL_igmp HP_fields.

(** src/ef-igmp.c:184-184 *)
Definition HDR_IGMP_init : out hdr :=
    Ret (def_offset HDR_IGMP_0).

Definition HDR_IGMP : hdr := Eval vm_compute in the_hdr HDR_IGMP_init.

Lemma HDR_IGMP_ok : HDR_IGMP_init = Ret HDR_IGMP.
Proof. vm_compute. reflexivity. Qed.

(** src/ef-igmp.c:175-181 *)
Definition HDR_IGMPV3_GROUP_0 : hdr :=
  MkHdr "igmpv3_group" 0 0 IGMPV3_GROUP_FIELDS FL_none HP_fields.

(** src/ef-igmp.c:185-185 *)
Definition HDR_IGMPV3_GROUP_init : out hdr :=
    Ret (def_offset HDR_IGMPV3_GROUP_0).

Definition HDR_IGMPV3_GROUP : hdr := Eval vm_compute in the_hdr HDR_IGMPV3_GROUP_init.

Lemma HDR_IGMPV3_GROUP_ok : HDR_IGMPV3_GROUP_init = Ret HDR_IGMPV3_GROUP.
Proof. vm_compute. reflexivity. Qed.


(** ** src/ef-mld.c *)

(** src/ef-mld.c:188-228 *)
Definition MLD_FIELDS : list field :=
  [ fld "type" 8 0 FP_default (* 189 *);
    fld "code" 8 0 FP_default (* 192 *);
    fld "chksum" 16 0 FP_default (* 195 *);
    fld "max_resp" 16 0 FP_default (* 198 *);
    fld "rsv" 16 0 FP_default (* 201 *);
    fld "ga" 128 0 FP_default (* 204 *);
    fld "qresv" 4 0 FP_default (* 207 *);
    fld "s" 1 0 FP_default (* 210 *);
    fld "qrv" 3 0 FP_default (* 213 *);
    fld "qqic" 8 0 FP_default (* 216 *);
    fld "ns" 16 0 FP_default (* 219 *);
    fld "rresv" 16 0 FP_default (* 222 *);
    fld "ng" 16 0 FP_default (* 225 *) ].

(** src/ef-mld.c:232-245 *)
Definition MLDV2_GROUP_FIELDS : list field :=
  [ fld "rec_type" 8 0 FP_default (* 233 *);
    fld "auxlen" 8 0 FP_default (* 236 *);
    fld "ns" 16 0 FP_default (* 239 *);
    fld "ga" 128 0 FP_default (* 242 *) ].

(** src/ef-mld.c:247-255 *)
Definition HDR_MLD_0 : hdr :=
  MkHdr "mld" 0 0 MLD_FIELDS FL_mld HP_fields.

(** src/ef-mld.c:267-267 *)
Definition HDR_MLD_init : out hdr :=
    Ret (def_offset HDR_MLD_0).

Definition HDR_MLD : hdr := Eval vm_compute in the_hdr HDR_MLD_init.

Lemma HDR_MLD_ok : HDR_MLD_init = Ret HDR_MLD.
Proof. vm_compute. reflexivity. Qed.

(** src/ef-mld.c:257-264 *)
Definition HDR_MLDV2_GROUP_0 : hdr :=
  MkHdr "mldv2_group" 2 0 MLDV2_GROUP_FIELDS FL_none HP_fields.

(** src/ef-mld.c:268-268 *)
Definition HDR_MLDV2_GROUP_init : out hdr :=
    Ret (def_offset HDR_MLDV2_GROUP_0).

Definition HDR_MLDV2_GROUP : hdr := Eval vm_compute in the_hdr HDR_MLDV2_GROUP_init.

Lemma HDR_MLDV2_GROUP_ok : HDR_MLDV2_GROUP_init = Ret HDR_MLDV2_GROUP.
Proof. vm_compute. reflexivity. Qed.


(** ** src/ef-udp.c *)

(** src/ef-udp.c:4-10 *)
Definition IPv4_PSEUDO_FIELDS : list field :=
  [ fld "sip" 32 0 FP_default (* 5 *);
    fld "dip" 32 0 FP_default (* 6 *);
    fld "zero" 8 0 FP_default (* 7 *);
    fld "proto" 8 0 FP_default (* 8 *);
    fld "len" 16 0 FP_default (* 9 *) ].

(** src/ef-udp.c:19-25 *)
Definition IPv6_PSEUDO_FIELDS : list field :=
  [ fld "sip" 128 0 FP_default (* 20 *);
    fld "dip" 128 0 FP_default (* 21 *);
    fld "len" 32 0 FP_default (* 22 *);
    fld "zero" 24 0 FP_default (* 23 *);
    fld "proto" 8 0 FP_default (* 24 *) ].

(** src/ef-udp.c:102-115 *)
Definition UDP_FIELDS : list field :=
  [ fld "sport" 16 0 FP_default (* 103 *);
    fld "dport" 16 0 FP_default (* 106 *);
    fld "len" 16 0 FP_default (* 109 *);
    fld "chksum" 16 0 FP_default (* 112 *) ].

(** src/ef-udp.c:127-173 *)
Definition TCP_FIELDS : list field :=
  [ fld "sport" 16 0 FP_default (* 128 *);
    fld "dport" 16 0 FP_default (* 131 *);
    fld "seqn" 32 0 FP_default (* 134 *);
    fld "ackn" 32 0 FP_default (* 137 *);
    fld "doff" 4 0 FP_default (* 140 *);
    fld "resv" 6 0 FP_default (* 143 *);
    fld "urg" 1 0 FP_default (* 146 *);
    fld "ack" 1 0 FP_default (* 149 *);
    fld "psh" 1 0 FP_default (* 152 *);
    fld "rst" 1 0 FP_default (* 155 *);
    fld "syn" 1 0 FP_default (* 158 *);
    fld "fin" 1 0 FP_default (* 161 *);
    fld "win" 16 0 FP_default (* 164 *);
    fld "chksum" 16 0 FP_default (* 167 *);
    fld "urgp" 16 0 FP_default (* 170 *) ].

(** src/ef-udp.c:12-17 *)
Definition HDR_IPV4_PSEUDO_0 : hdr :=
  MkHdr "ipv4-pseudo" 0 0 IPv4_PSEUDO_FIELDS FL_none HP_none.

(** src/ef-udp.c:186-186 *)
Definition HDR_IPV4_PSEUDO_init : out hdr :=
    Ret (def_offset HDR_IPV4_PSEUDO_0).

Definition HDR_IPV4_PSEUDO : hdr := Eval vm_compute in the_hdr HDR_IPV4_PSEUDO_init.

Lemma HDR_IPV4_PSEUDO_ok : HDR_IPV4_PSEUDO_init = Ret HDR_IPV4_PSEUDO.
Proof. vm_compute. reflexivity. Qed.

(** src/ef-udp.c:27-32 *)
Definition HDR_IPV6_PSEUDO_0 : hdr :=
  MkHdr "ipv6-pseudo" 0 0 IPv6_PSEUDO_FIELDS FL_none HP_none.

(** src/ef-udp.c:187-187 *)
Definition HDR_IPV6_PSEUDO_init : out hdr :=
    Ret (def_offset HDR_IPV6_PSEUDO_0).

Definition HDR_IPV6_PSEUDO : hdr := Eval vm_compute in the_hdr HDR_IPV6_PSEUDO_init.

Lemma HDR_IPV6_PSEUDO_ok : HDR_IPV6_PSEUDO_init = Ret HDR_IPV6_PSEUDO.
Proof. vm_compute. reflexivity. Qed.

(** src/ef-udp.c:117-125 *)
Definition HDR_UDP_0 : hdr :=
  MkHdr "udp" 17 0 UDP_FIELDS FL_udp_tcp HP_fields.

(** src/ef-udp.c:189-189 *)
Definition HDR_UDP_init : out hdr :=
    Ret (def_offset HDR_UDP_0).

Definition HDR_UDP : hdr := Eval vm_compute in the_hdr HDR_UDP_init.

Lemma HDR_UDP_ok : HDR_UDP_init = Ret HDR_UDP.
Proof. vm_compute. reflexivity. Qed.

(** src/ef-udp.c:175-183 *)
Definition HDR_TCP_0 : hdr :=
  MkHdr "tcp" 6 0 TCP_FIELDS FL_udp_tcp HP_fields.

(** src/ef-udp.c:190-191 *)
Definition HDR_TCP_init : out hdr :=
    dv "doff" "5"
    (Ret (def_offset HDR_TCP_0)).

Definition HDR_TCP : hdr := Eval vm_compute in the_hdr HDR_TCP_init.

Lemma HDR_TCP_ok : HDR_TCP_init = Ret HDR_TCP.
Proof. vm_compute. reflexivity. Qed.


(** ** src/ef-payload.c *)

(** src/ef-payload.c:21-25 *)
Definition PAYLOAD_FIELDS : list field :=
  [ fld "hex" 0 0 FP_default (* 22 *) ].

(** src/ef-payload.c:27-33 *)
Definition HDR_PAYLOAD_0 : hdr :=
  MkHdr "data" 0 0 PAYLOAD_FIELDS FL_none HP_payload.

(** src/ef-payload.c:36-36 *)
Definition HDR_PAYLOAD_init : out hdr :=
    Ret (def_offset HDR_PAYLOAD_0).

Definition HDR_PAYLOAD : hdr := Eval vm_compute in the_hdr HDR_PAYLOAD_init.

Lemma HDR_PAYLOAD_ok : HDR_PAYLOAD_init = Ret HDR_PAYLOAD.
Proof. vm_compute. reflexivity. Qed.


(** ** src/ef-padding.c *)

(** src/ef-padding.c:20-24 *)
Definition HDR_PADDING_0 : hdr :=
  MkHdr "padding" 0 0 [] FL_none HP_padding.

(** never initialised further *)
Definition HDR_PADDING_init : out hdr := Ret HDR_PADDING_0.

Definition HDR_PADDING : hdr := Eval vm_compute in the_hdr HDR_PADDING_init.

Lemma HDR_PADDING_ok : HDR_PADDING_init = Ret HDR_PADDING.
Proof. vm_compute. reflexivity. Qed.


(** ** src/ef-oam.c *)

(** src/ef-oam.c:10-63 *)
Definition CCM_FIELDS : list field :=
  [ fld "mel" 3 0 FP_default (* 11 *);
    fld "version" 5 0 FP_default (* 14 *);
    fld "opcode" 8 0 FP_default (* 17 *);
    fld "rdi" 1 0 FP_default (* 20 *);
    fld "reserved" 4 0 FP_default (* 23 *);
    fld "period" 3 0 FP_default (* 26 *);
    fld "tlv_off" 8 0 FP_default (* 29 *);
    fld "seq_num" 32 0 FP_default (* 32 *);
    fld "mep_id" 16 0 FP_default (* 35 *);
    fld "meg_id" 384 0 FP_field_hex (* 38 *);
    fld "txfcf" 32 0 FP_default (* 42 *);
    fld "rxfcb" 32 0 FP_default (* 45 *);
    fld "txfcb" 32 0 FP_default (* 48 *);
    fld "reserved" 32 0 FP_default (* 51 *);
    fld "end_tlv" 8 0 FP_default (* 54 *);
    fld "tlv_length" 16 0 FP_default (* 57 *);
    fld "tlv_value" 8 0 FP_default (* 60 *) ].

(** src/ef-oam.c:79-116 *)
Definition LAPS_FIELDS : list field :=
  [ fld "mel" 3 0 FP_default (* 80 *);
    fld "version" 5 0 FP_default (* 83 *);
    fld "opcode" 8 0 FP_default (* 86 *);
    fld "flags" 8 0 FP_default (* 89 *);
    fld "tlv_off" 8 0 FP_default (* 92 *);
    fld "req_sta" 4 0 FP_default (* 95 *);
    fld "prot_type" 4 0 FP_default (* 98 *);
    fld "request_sig" 8 0 FP_default (* 101 *);
    fld "bridge_sig" 8 0 FP_default (* 104 *);
    fld "t" 1 0 FP_default (* 107 *);
    fld "reserved" 7 0 FP_default (* 110 *);
    fld "padding" 400 0 FP_default (* 113 *) ].

(** src/ef-oam.c:132-169 *)
Definition LB_FIELDS : list field :=
  [ fld "mel" 3 0 FP_default (* 133 *);
    fld "version" 5 0 FP_default (* 136 *);
    fld "opcode" 8 0 FP_default (* 139 *);
    fld "flags" 8 0 FP_default (* 142 *);
    fld "tlv_off" 8 0 FP_default (* 145 *);
    fld "trans_id" 32 0 FP_default (* 148 *);
    fld "type" 8 0 FP_default (* 151 *);
    fld "tlv_length" 16 0 FP_default (* 154 *);
    fld "pattern_type" 8 0 FP_default (* 157 *);
    fld "pattern" 56 0 FP_default (* 160 *);
    fld "crc32" 32 0 FP_default (* 163 *);
    fld "padding" 400 0 FP_default (* 166 *) ].

(** src/ef-oam.c:185-207 *)
Definition LT_FIELDS : list field :=
  [ fld "mel" 3 0 FP_default (* 186 *);
    fld "version" 5 0 FP_default (* 189 *);
    fld "opcode" 8 0 FP_default (* 192 *);
    fld "flags" 8 0 FP_default (* 195 *);
    fld "tlv_off" 8 0 FP_default (* 198 *);
    fld "trans_id" 32 0 FP_default (* 201 *);
    fld "padding" 480 0 FP_default (* 204 *) ].

(** src/ef-oam.c:223-257 *)
Definition RAPS_FIELDS : list field :=
  [ fld "mel" 3 0 FP_default (* 224 *);
    fld "version" 5 0 FP_default (* 227 *);
    fld "opcode" 8 0 FP_default (* 230 *);
    fld "flags" 8 0 FP_default (* 233 *);
    fld "tlv_off" 8 0 FP_default (* 236 *);
    fld "req_sta" 4 0 FP_default (* 239 *);
    fld "sub_code" 4 0 FP_default (* 242 *);
    fld "status" 8 0 FP_default (* 245 *);
    fld "node_id" 48 0 FP_default (* 248 *);
    fld "reserved" 192 0 FP_default (* 251 *);
    fld "padding" 80 0 FP_default (* 254 *) ].

(** src/ef-oam.c:65-73 *)
Definition HDR_CCM_0 : hdr :=
  MkHdr "oam-ccm" 35074 0 CCM_FIELDS FL_none HP_fields.

(** src/ef-oam.c:270-276 *)
Definition HDR_CCM_init : out hdr :=
    dv "seq_num" "0"
    (dv "reserved" "0"
    (dv "rdi" "0"
    (dv "tlv_off" "70"
    (dv "opcode" "1"
    (dv "version" "0"
    (Ret (def_offset HDR_CCM_0))))))).

Definition HDR_CCM : hdr := Eval vm_compute in the_hdr HDR_CCM_init.

Lemma HDR_CCM_ok : HDR_CCM_init = Ret HDR_CCM.
Proof. vm_compute. reflexivity. Qed.

(** src/ef-oam.c:118-126 *)
Definition HDR_LAPS_0 : hdr :=
  MkHdr "oam-laps" 35074 0 LAPS_FIELDS FL_none HP_fields.

(** src/ef-oam.c:278-281 *)
Definition HDR_LAPS_init : out hdr :=
    dv "tlv_off" "4"
    (dv "opcode" "39"
    (dv "version" "0"
    (Ret (def_offset HDR_LAPS_0)))).

Definition HDR_LAPS : hdr := Eval vm_compute in the_hdr HDR_LAPS_init.

Lemma HDR_LAPS_ok : HDR_LAPS_init = Ret HDR_LAPS.
Proof. vm_compute. reflexivity. Qed.

(** src/ef-oam.c:171-179 *)
Definition HDR_LB_0 : hdr :=
  MkHdr "oam-lb" 35074 0 LB_FIELDS FL_none HP_fields.

(** src/ef-oam.c:283-287 *)
Definition HDR_LB_init : out hdr :=
    dv "tlv_length" "0"
    (dv "type" "0"
    (dv "tlv_off" "4"
    (dv "version" "0"
    (Ret (def_offset HDR_LB_0))))).

Definition HDR_LB : hdr := Eval vm_compute in the_hdr HDR_LB_init.

Lemma HDR_LB_ok : HDR_LB_init = Ret HDR_LB.
Proof. vm_compute. reflexivity. Qed.

(** src/ef-oam.c:209-217 *)
Definition HDR_LT_0 : hdr :=
  MkHdr "oam-lt" 35074 0 LT_FIELDS FL_none HP_fields.

(** src/ef-oam.c:289-290 *)
Definition HDR_LT_init : out hdr :=
    dv "version" "0"
    (Ret (def_offset HDR_LT_0)).

Definition HDR_LT : hdr := Eval vm_compute in the_hdr HDR_LT_init.

Lemma HDR_LT_ok : HDR_LT_init = Ret HDR_LT.
Proof. vm_compute. reflexivity. Qed.

(** src/ef-oam.c:259-267 *)
Definition HDR_RAPS_0 : hdr :=
  MkHdr "oam-raps" 35074 0 RAPS_FIELDS FL_none HP_fields.

(** src/ef-oam.c:292-295 *)
Definition HDR_RAPS_init : out hdr :=
    dv "tlv_off" "32"
    (dv "opcode" "40"
    (dv "version" "1"
    (Ret (def_offset HDR_RAPS_0)))).

Definition HDR_RAPS : hdr := Eval vm_compute in the_hdr HDR_RAPS_init.

Lemma HDR_RAPS_ok : HDR_RAPS_init = Ret HDR_RAPS.
Proof. vm_compute. reflexivity. Qed.


(** ** src/ef-mrp.c *)

(** src/ef-mrp.c:10-59 *)
Definition MRP_TST_FIELDS : list field :=
  [ fld "version" 16 0 FP_default (* 11 *);
    fld "t_type" 8 0 FP_default (* 14 *);
    fld "t_length" 8 0 FP_default (* 17 *);
    fld "t_prio" 16 0 FP_default (* 20 *);
    fld "t_sa" 48 0 FP_default (* 23 *);
    fld "t_role" 16 0 FP_default (* 26 *);
    fld "t_state" 16 0 FP_default (* 29 *);
    fld "t_trans" 16 0 FP_default (* 32 *);
    fld "t_ts" 32 0 FP_default (* 35 *);
    fld "c_type" 8 0 FP_default (* 38 *);
    fld "c_length" 8 0 FP_default (* 41 *);
    fld "c_seq_num" 16 0 FP_default (* 44 *);
    fld "c_domain" 128 0 FP_default (* 47 *);
    fld "e_type" 8 0 FP_default (* 50 *);
    fld "e_length" 8 0 FP_default (* 53 *);
    fld "padding" 160 0 FP_default (* 56 *) ].

(** src/ef-mrp.c:75-115 *)
Definition MRP_TOPO_FIELDS : list field :=
  [ fld "version" 16 0 FP_default (* 76 *);
    fld "t_type" 8 0 FP_default (* 79 *);
    fld "t_length" 8 0 FP_default (* 82 *);
    fld "t_prio" 16 0 FP_default (* 85 *);
    fld "t_sa" 48 0 FP_default (* 88 *);
    fld "t_interval" 16 0 FP_default (* 91 *);
    fld "c_type" 8 0 FP_default (* 94 *);
    fld "c_length" 8 0 FP_default (* 97 *);
    fld "c_seq_num" 16 0 FP_default (* 100 *);
    fld "c_domain" 128 0 FP_default (* 103 *);
    fld "e_type" 8 0 FP_default (* 106 *);
    fld "e_length" 8 0 FP_default (* 109 *);
    fld "padding" 240 0 FP_default (* 112 *) ].

(** src/ef-mrp.c:131-174 *)
Definition MRP_LNK_FIELDS : list field :=
  [ fld "version" 16 0 FP_default (* 132 *);
    fld "t_type" 8 0 FP_default (* 135 *);
    fld "t_length" 8 0 FP_default (* 138 *);
    fld "t_sa" 48 0 FP_default (* 141 *);
    fld "t_role" 16 0 FP_default (* 144 *);
    fld "t_interval" 16 0 FP_default (* 147 *);
    fld "t_blocked" 16 0 FP_default (* 150 *);
    fld "c_type" 8 0 FP_default (* 153 *);
    fld "c_length" 8 0 FP_default (* 156 *);
    fld "c_seq_num" 16 0 FP_default (* 159 *);
    fld "c_domain" 128 0 FP_default (* 162 *);
    fld "e_type" 8 0 FP_default (* 165 *);
    fld "e_length" 8 0 FP_default (* 168 *);
    fld "padding" 240 0 FP_default (* 171 *) ].

(** src/ef-mrp.c:190-248 *)
Definition MRP_PROP_NACK_FIELDS : list field :=
  [ fld "version" 16 0 FP_default (* 191 *);
    fld "t_type" 8 0 FP_default (* 194 *);
    fld "t_length" 8 0 FP_default (* 197 *);
    fld "t_qui" 24 0 FP_default (* 200 *);
    fld "t_sub1_type" 8 0 FP_default (* 203 *);
    fld "t_sub1_man" 16 0 FP_default (* 206 *);
    fld "t_s_type" 8 0 FP_default (* 209 *);
    fld "t_s_length" 8 0 FP_default (* 212 *);
    fld "t_s_prio" 16 0 FP_default (* 215 *);
    fld "t_s_sa" 48 0 FP_default (* 218 *);
    fld "t_s_oprio" 16 0 FP_default (* 221 *);
    fld "t_s_osa" 48 0 FP_default (* 224 *);
    fld "c_type" 8 0 FP_default (* 227 *);
    fld "c_length" 8 0 FP_default (* 230 *);
    fld "c_seq_num" 16 0 FP_default (* 233 *);
    fld "c_domain" 128 0 FP_default (* 236 *);
    fld "e_type" 8 0 FP_default (* 239 *);
    fld "e_length" 8 0 FP_default (* 242 *);
    fld "padding" 320 0 FP_default (* 245 *) ].

(** src/ef-mrp.c:61-69 *)
Definition HDR_MRP_TST_0 : hdr :=
  MkHdr "mrp_tst" 35043 0 MRP_TST_FIELDS FL_none HP_fields.

(** src/ef-mrp.c:262-269 *)
Definition HDR_MRP_TST_init : out hdr :=
    dv "e_length" "0"
    (dv "e_type" "0"
    (dv "c_length" "18"
    (dv "c_type" "1"
    (dv "t_length" "18"
    (dv "t_type" "2"
    (dv "version" "1"
    (Ret (def_offset HDR_MRP_TST_0)))))))).

Definition HDR_MRP_TST : hdr := Eval vm_compute in the_hdr HDR_MRP_TST_init.

Lemma HDR_MRP_TST_ok : HDR_MRP_TST_init = Ret HDR_MRP_TST.
Proof. vm_compute. reflexivity. Qed.

(** src/ef-mrp.c:117-125 *)
Definition HDR_MRP_TOPO_0 : hdr :=
  MkHdr "mrp_topo" 35043 0 MRP_TOPO_FIELDS FL_none HP_fields.

(** src/ef-mrp.c:271-278 *)
Definition HDR_MRP_TOPO_init : out hdr :=
    dv "e_length" "0"
    (dv "e_type" "0"
    (dv "c_length" "18"
    (dv "c_type" "1"
    (dv "t_length" "12"
    (dv "t_type" "3"
    (dv "version" "1"
    (Ret (def_offset HDR_MRP_TOPO_0)))))))).

Definition HDR_MRP_TOPO : hdr := Eval vm_compute in the_hdr HDR_MRP_TOPO_init.

Lemma HDR_MRP_TOPO_ok : HDR_MRP_TOPO_init = Ret HDR_MRP_TOPO.
Proof. vm_compute. reflexivity. Qed.

(** src/ef-mrp.c:176-184 *)
Definition HDR_MRP_LNK_0 : hdr :=
  MkHdr "mrp_lnk" 35043 0 MRP_LNK_FIELDS FL_none HP_fields.

(** src/ef-mrp.c:280-287 *)
Definition HDR_MRP_LNK_init : out hdr :=
    dv "e_length" "0"
    (dv "e_type" "0"
    (dv "c_length" "18"
    (dv "c_type" "1"
    (dv "t_length" "12"
    (dv "t_type" "4"
    (dv "version" "1"
    (Ret (def_offset HDR_MRP_LNK_0)))))))).

Definition HDR_MRP_LNK : hdr := Eval vm_compute in the_hdr HDR_MRP_LNK_init.

Lemma HDR_MRP_LNK_ok : HDR_MRP_LNK_init = Ret HDR_MRP_LNK.
Proof. vm_compute. reflexivity. Qed.

(** src/ef-mrp.c:250-258 *)
Definition HDR_MRP_PROP_NACK_0 : hdr :=
  MkHdr "mrp_prop_nack" 35043 0 MRP_PROP_NACK_FIELDS FL_none HP_fields.

(** src/ef-mrp.c:289-298 *)
Definition HDR_MRP_PROP_NACK_init : out hdr :=
    dv "e_length" "0"
    (dv "e_type" "0"
    (dv "c_length" "18"
    (dv "c_type" "1"
    (dv "t_s_length" "16"
    (dv "t_s_type" "2"
    (dv "t_length" "24"
    (dv "t_type" "127"
    (dv "version" "1"
    (Ret (def_offset HDR_MRP_PROP_NACK_0)))))))))).

Definition HDR_MRP_PROP_NACK : hdr := Eval vm_compute in the_hdr HDR_MRP_PROP_NACK_init.

Lemma HDR_MRP_PROP_NACK_ok : HDR_MRP_PROP_NACK_init = Ret HDR_MRP_PROP_NACK.
Proof. vm_compute. reflexivity. Qed.


(** ** src/ef-ptp.c *)

(** src/ef-ptp.c:53-124 *)
Definition SYNC_FIELDS : list field :=
  [ fld "hdr-transportSpecific" 4 0 FP_default (* 55 *);
    fld "hdr-messageType" 4 0 FP_default (* 59 *);
    fld "hdr-minorVersionPTP" 4 0 FP_default (* 63 *);
    fld "hdr-versionPTP" 4 0 FP_default (* 67 *);
    fld "hdr-messageLength" 16 0 FP_default (* 71 *);
    fld "hdr-domainNumber" 8 0 FP_default (* 75 *);
    fld "hdr-reserved1" 8 0 FP_default (* 79 *);
    fld "hdr-flagField" 16 0 FP_default (* 83 *);
    fld "hdr-correctionField" 64 0 FP_default (* 87 *);
    fld "hdr-reserved2" 32 0 FP_default (* 91 *);
    fld "hdr-clockId" 64 0 FP_default (* 95 *);
    fld "hdr-portNumber" 16 0 FP_default (* 99 *);
    fld "hdr-sequenceId" 16 0 FP_default (* 102 *);
    fld "hdr-controlField" 8 0 FP_default (* 106 *);
    fld "hdr-logMessageInterval" 8 0 FP_default (* 110 *);
    fld "ots-secondsField" 48 0 FP_default (* 116 *);
    fld "ots-nanosecondsField" 32 0 FP_default (* 120 *) ].

(** src/ef-ptp.c:136-207 *)
Definition FOLLOW_UP_FIELDS : list field :=
  [ fld "hdr-transportSpecific" 4 0 FP_default (* 138 *);
    fld "hdr-messageType" 4 0 FP_default (* 142 *);
    fld "hdr-minorVersionPTP" 4 0 FP_default (* 146 *);
    fld "hdr-versionPTP" 4 0 FP_default (* 150 *);
    fld "hdr-messageLength" 16 0 FP_default (* 154 *);
    fld "hdr-domainNumber" 8 0 FP_default (* 158 *);
    fld "hdr-reserved1" 8 0 FP_default (* 162 *);
    fld "hdr-flagField" 16 0 FP_default (* 166 *);
    fld "hdr-correctionField" 64 0 FP_default (* 170 *);
    fld "hdr-reserved2" 32 0 FP_default (* 174 *);
    fld "hdr-clockId" 64 0 FP_default (* 178 *);
    fld "hdr-portNumber" 16 0 FP_default (* 182 *);
    fld "hdr-sequenceId" 16 0 FP_default (* 185 *);
    fld "hdr-controlField" 8 0 FP_default (* 189 *);
    fld "hdr-logMessageInterval" 8 0 FP_default (* 193 *);
    fld "pts-secondsField" 48 0 FP_default (* 199 *);
    fld "pts-nanosecondsField" 32 0 FP_default (* 203 *) ].

(** src/ef-ptp.c:219-290 *)
Definition REQ_FIELDS : list field :=
  [ fld "hdr-transportSpecific" 4 0 FP_default (* 221 *);
    fld "hdr-messageType" 4 0 FP_default (* 225 *);
    fld "hdr-minorVersionPTP" 4 0 FP_default (* 229 *);
    fld "hdr-versionPTP" 4 0 FP_default (* 233 *);
    fld "hdr-messageLength" 16 0 FP_default (* 237 *);
    fld "hdr-domainNumber" 8 0 FP_default (* 241 *);
    fld "hdr-reserved1" 8 0 FP_default (* 245 *);
    fld "hdr-flagField" 16 0 FP_default (* 249 *);
    fld "hdr-correctionField" 64 0 FP_default (* 253 *);
    fld "hdr-reserved2" 32 0 FP_default (* 257 *);
    fld "hdr-clockId" 64 0 FP_default (* 261 *);
    fld "hdr-portNumber" 16 0 FP_default (* 265 *);
    fld "hdr-sequenceId" 16 0 FP_default (* 268 *);
    fld "hdr-controlField" 8 0 FP_default (* 272 *);
    fld "hdr-logMessageInterval" 8 0 FP_default (* 276 *);
    fld "ots-secondsField" 48 0 FP_default (* 282 *);
    fld "ots-nanosecondsField" 32 0 FP_default (* 286 *) ].

(** src/ef-ptp.c:302-365 *)
Definition RESPONSE_FIELDS : list field :=
  [ fld "hdr-transportSpecific" 4 0 FP_default (* 304 *);
    fld "hdr-messageType" 4 0 FP_default (* 307 *);
    fld "hdr-minotrVersionPTP" 4 0 FP_default (* 310 *);
    fld "hdr-versionPTP" 4 0 FP_default (* 313 *);
    fld "hdr-messageLength" 16 0 FP_default (* 316 *);
    fld "hdr-domainNumber" 8 0 FP_default (* 319 *);
    fld "hdr-reserved1" 8 0 FP_default (* 322 *);
    fld "hdr-flagField" 16 0 FP_default (* 325 *);
    fld "hdr-correctionField" 64 0 FP_default (* 328 *);
    fld "hdr-reserved2" 32 0 FP_default (* 331 *);
    fld "hdr-clockId" 64 0 FP_default (* 334 *);
    fld "hdr-portNumber" 16 0 FP_default (* 337 *);
    fld "hdr-sequenceId" 16 0 FP_default (* 340 *);
    fld "hdr-controlField" 8 0 FP_default (* 343 *);
    fld "hdr-logMessageInterval" 8 0 FP_default (* 346 *);
    fld "rts-secondsField" 48 0 FP_default (* 351 *);
    fld "rts-nanosecondsField" 32 0 FP_default (* 354 *);
    fld "rpi-clockId" 64 0 FP_default (* 359 *);
    fld "rpi-portNumber" 16 0 FP_default (* 362 *) ].

(** src/ef-ptp.c:377-443 *)
Definition PEER_REQUEST_FIELDS : list field :=
  [ fld "hdr-transportSpecific" 4 0 FP_default (* 379 *);
    fld "hdr-messageType" 4 0 FP_default (* 383 *);
    fld "hdr-minorVersionPTP" 4 0 FP_default (* 387 *);
    fld "hdr-versionPTP" 4 0 FP_default (* 391 *);
    fld "hdr-messageLength" 16 0 FP_default (* 395 *);
    fld "hdr-domainNumber" 8 0 FP_default (* 399 *);
    fld "hdr-reserved1" 8 0 FP_default (* 403 *);
    fld "hdr-flagField" 16 0 FP_default (* 407 *);
    fld "hdr-correctionField" 64 0 FP_default (* 411 *);
    fld "hdr-reserved2" 32 0 FP_default (* 415 *);
    fld "hdr-clockId" 64 0 FP_default (* 419 *);
    fld "hdr-portNumber" 16 0 FP_default (* 423 *);
    fld "hdr-sequenceId" 16 0 FP_default (* 426 *);
    fld "hdr-controlField" 8 0 FP_default (* 430 *);
    fld "hdr-logMessageInterval" 8 0 FP_default (* 434 *);
    fld "rpi-reserved" 160 0 FP_default (* 439 *) ].

(** src/ef-ptp.c:455-518 *)
Definition PEER_RESPONSE_FIELDS : list field :=
  [ fld "hdr-transportSpecific" 4 0 FP_default (* 457 *);
    fld "hdr-messageType" 4 0 FP_default (* 460 *);
    fld "hdr-minorVersionPTP" 4 0 FP_default (* 463 *);
    fld "hdr-versionPTP" 4 0 FP_default (* 466 *);
    fld "hdr-messageLength" 16 0 FP_default (* 469 *);
    fld "hdr-domainNumber" 8 0 FP_default (* 472 *);
    fld "hdr-reserved1" 8 0 FP_default (* 475 *);
    fld "hdr-flagField" 16 0 FP_default (* 478 *);
    fld "hdr-correctionField" 64 0 FP_default (* 481 *);
    fld "hdr-reserved2" 32 0 FP_default (* 484 *);
    fld "hdr-clockId" 64 0 FP_default (* 487 *);
    fld "hdr-portNumber" 16 0 FP_default (* 490 *);
    fld "hdr-sequenceId" 16 0 FP_default (* 493 *);
    fld "hdr-controlField" 8 0 FP_default (* 496 *);
    fld "hdr-logMessageInterval" 8 0 FP_default (* 499 *);
    fld "rts-secondsField" 48 0 FP_default (* 504 *);
    fld "rts-nanosecondsField" 32 0 FP_default (* 507 *);
    fld "rpi-clockId" 64 0 FP_default (* 512 *);
    fld "rpi-portNumber" 16 0 FP_default (* 515 *) ].

(** src/ef-ptp.c:530-593 *)
Definition PEER_RESPONSE_FOLLOW_UP_FIELDS : list field :=
  [ fld "hdr-transportSpecific" 4 0 FP_default (* 532 *);
    fld "hdr-messageType" 4 0 FP_default (* 535 *);
    fld "hdr-minorVersionPTP" 4 0 FP_default (* 538 *);
    fld "hdr-versionPTP" 4 0 FP_default (* 541 *);
    fld "hdr-messageLength" 16 0 FP_default (* 544 *);
    fld "hdr-domainNumber" 8 0 FP_default (* 547 *);
    fld "hdr-reserved1" 8 0 FP_default (* 550 *);
    fld "hdr-flagField" 16 0 FP_default (* 553 *);
    fld "hdr-correctionField" 64 0 FP_default (* 556 *);
    fld "hdr-reserved2" 32 0 FP_default (* 559 *);
    fld "hdr-clockId" 64 0 FP_default (* 562 *);
    fld "hdr-portNumber" 16 0 FP_default (* 565 *);
    fld "hdr-sequenceId" 16 0 FP_default (* 568 *);
    fld "hdr-controlField" 8 0 FP_default (* 571 *);
    fld "hdr-logMessageInterval" 8 0 FP_default (* 574 *);
    fld "rots-secondsField" 48 0 FP_default (* 579 *);
    fld "rots-nanosecondsField" 32 0 FP_default (* 582 *);
    fld "rpi-clockId" 64 0 FP_default (* 587 *);
    fld "rpi-portNumber" 16 0 FP_default (* 590 *) ].

(** src/ef-ptp.c:606-688 *)
Definition ANNOUNCE_FIELDS : list field :=
  [ fld "hdr-transportSpecific" 4 0 FP_default (* 608 *);
    fld "hdr-messageType" 4 0 FP_default (* 611 *);
    fld "hdr-minorVersionPTP" 4 0 FP_default (* 614 *);
    fld "hdr-versionPTP" 4 0 FP_default (* 617 *);
    fld "hdr-messageLength" 16 0 FP_default (* 620 *);
    fld "hdr-domainNumber" 8 0 FP_default (* 623 *);
    fld "hdr-reserved1" 8 0 FP_default (* 626 *);
    fld "hdr-flagField" 16 0 FP_default (* 629 *);
    fld "hdr-correctionField" 64 0 FP_default (* 632 *);
    fld "hdr-reserved2" 32 0 FP_default (* 635 *);
    fld "hdr-clockId" 64 0 FP_default (* 638 *);
    fld "hdr-portNumber" 16 0 FP_default (* 641 *);
    fld "hdr-sequenceId" 16 0 FP_default (* 644 *);
    fld "hdr-controlField" 8 0 FP_default (* 647 *);
    fld "hdr-logMessageInterval" 8 0 FP_default (* 650 *);
    fld "ann-reserved1" 80 0 FP_default (* 655 *);
    fld "ann-offset" 16 0 FP_default (* 658 *);
    fld "ann-reserved1" 8 0 FP_default (* 661 *);
    fld "ann-gmPrio1" 8 0 FP_default (* 664 *);
    fld "ann-clockClass" 8 0 FP_default (* 667 *);
    fld "ann-clockAcc" 8 0 FP_default (* 670 *);
    fld "ann-offsetScaledLogVariance" 16 0 FP_default (* 673 *);
    fld "ann-gmPrio2" 8 0 FP_default (* 676 *);
    fld "ann-gmIdentity" 64 0 FP_default (* 679 *);
    fld "ann-stepsRemoved" 16 0 FP_default (* 682 *);
    fld "ann-timeSource" 8 0 FP_default (* 685 *) ].

(** src/ef-ptp.c:700-731 *)
Definition TLV_ORG_FIELDS : list field :=
  [ fld "tlv-type" 16 0 FP_default (* 701 *);
    fld "tlv-length" 16 0 FP_default (* 704 *);
    fld "tlv-org-id" 24 0 FP_default (* 707 *);
    fld "tlv-org-sub-type" 24 0 FP_default (* 710 *);
    fld "tlv-csro" 32 0 FP_default (* 713 *);
    fld "tlv-gm-time-base-indicator" 16 0 FP_default (* 716 *);
    fld "tlv-gm-phase-change-msb-nsec" 16 0 FP_default (* 719 *);
    fld "tlv-gm-phase-change-lsb-nsec" 64 0 FP_default (* 722 *);
    fld "tlv-gm-phase-change-frac-nsec" 16 0 FP_default (* 725 *);
    fld "tlv-gm-freq-change" 32 0 FP_default (* 728 *) ].

(** src/ef-ptp.c:743-750 *)
Definition TLV_PATH_FIELDS : list field :=
  [ fld "tlv-type" 16 0 FP_default (* 744 *);
    fld "tlv-length" 16 0 FP_default (* 747 *) ].

(** src/ef-ptp.c:126-134 *)
Definition HDR_SYNC_0 : hdr :=
  MkHdr "ptp-sync" 35063 0 SYNC_FIELDS FL_ptp HP_fields.

(** src/ef-ptp.c:763-766 *)
Definition HDR_SYNC_init : out hdr :=
    dv "ots-nanosecondsField" "0"
    (dv "ots-secondsField" "0"
    (dv "hdr-messageType" "0"
    (Ret (def_offset HDR_SYNC_0)))).

Definition HDR_SYNC : hdr := Eval vm_compute in the_hdr HDR_SYNC_init.

Lemma HDR_SYNC_ok : HDR_SYNC_init = Ret HDR_SYNC.
Proof. vm_compute. reflexivity. Qed.

(** src/ef-ptp.c:209-217 *)
Definition HDR_FOLLOW_UP_0 : hdr :=
  MkHdr "ptp-follow-up" 35063 0 FOLLOW_UP_FIELDS FL_ptp HP_fields.

(** src/ef-ptp.c:768-769 *)
Definition HDR_FOLLOW_UP_init : out hdr :=
    dv "hdr-messageType" "8"
    (Ret (def_offset HDR_FOLLOW_UP_0)).

Definition HDR_FOLLOW_UP : hdr := Eval vm_compute in the_hdr HDR_FOLLOW_UP_init.

Lemma HDR_FOLLOW_UP_ok : HDR_FOLLOW_UP_init = Ret HDR_FOLLOW_UP.
Proof. vm_compute. reflexivity. Qed.

(** src/ef-ptp.c:292-300 *)
Definition HDR_REQUEST_0 : hdr :=
  MkHdr "ptp-request" 35063 0 REQ_FIELDS FL_ptp HP_fields.

(** src/ef-ptp.c:771-772 *)
Definition HDR_REQUEST_init : out hdr :=
    dv "hdr-messageType" "1"
    (Ret (def_offset HDR_REQUEST_0)).

Definition HDR_REQUEST : hdr := Eval vm_compute in the_hdr HDR_REQUEST_init.

Lemma HDR_REQUEST_ok : HDR_REQUEST_init = Ret HDR_REQUEST.
Proof. vm_compute. reflexivity. Qed.

(** src/ef-ptp.c:367-375 *)
Definition HDR_RESPONSE_0 : hdr :=
  MkHdr "ptp-response" 35063 0 RESPONSE_FIELDS FL_ptp HP_fields.

(** src/ef-ptp.c:774-775 *)
Definition HDR_RESPONSE_init : out hdr :=
    dv "hdr-messageType" "9"
    (Ret (def_offset HDR_RESPONSE_0)).

Definition HDR_RESPONSE : hdr := Eval vm_compute in the_hdr HDR_RESPONSE_init.

Lemma HDR_RESPONSE_ok : HDR_RESPONSE_init = Ret HDR_RESPONSE.
Proof. vm_compute. reflexivity. Qed.

(** src/ef-ptp.c:445-453 *)
Definition HDR_PEER_REQUEST_0 : hdr :=
  MkHdr "ptp-peer-request" 35063 0 PEER_REQUEST_FIELDS FL_ptp HP_fields.

(** src/ef-ptp.c:777-778 *)
Definition HDR_PEER_REQUEST_init : out hdr :=
    dv "hdr-messageType" "2"
    (Ret (def_offset HDR_PEER_REQUEST_0)).

Definition HDR_PEER_REQUEST : hdr := Eval vm_compute in the_hdr HDR_PEER_REQUEST_init.

Lemma HDR_PEER_REQUEST_ok : HDR_PEER_REQUEST_init = Ret HDR_PEER_REQUEST.
Proof. vm_compute. reflexivity. Qed.

(** src/ef-ptp.c:520-528 *)
Definition HDR_PEER_RESPONSE_0 : hdr :=
  MkHdr "ptp-peer-response" 35063 0 PEER_RESPONSE_FIELDS FL_ptp HP_fields.

(** src/ef-ptp.c:780-781 *)
Definition HDR_PEER_RESPONSE_init : out hdr :=
    dv "hdr-messageType" "3"
    (Ret (def_offset HDR_PEER_RESPONSE_0)).

Definition HDR_PEER_RESPONSE : hdr := Eval vm_compute in the_hdr HDR_PEER_RESPONSE_init.

Lemma HDR_PEER_RESPONSE_ok : HDR_PEER_RESPONSE_init = Ret HDR_PEER_RESPONSE.
Proof. vm_compute. reflexivity. Qed.

(** src/ef-ptp.c:595-604 *)
Definition HDR_PEER_RESPONSE_FOLLOW_UP_0 : hdr :=
  MkHdr "ptp-peer-response-follow-up" 35063 0 PEER_RESPONSE_FOLLOW_UP_FIELDS FL_ptp HP_fields.

(** src/ef-ptp.c:783-784 *)
Definition HDR_PEER_RESPONSE_FOLLOW_UP_init : out hdr :=
    dv "hdr-messageType" "10"
    (Ret (def_offset HDR_PEER_RESPONSE_FOLLOW_UP_0)).

Definition HDR_PEER_RESPONSE_FOLLOW_UP : hdr := Eval vm_compute in the_hdr HDR_PEER_RESPONSE_FOLLOW_UP_init.

Lemma HDR_PEER_RESPONSE_FOLLOW_UP_ok : HDR_PEER_RESPONSE_FOLLOW_UP_init = Ret HDR_PEER_RESPONSE_FOLLOW_UP.
Proof. vm_compute. reflexivity. Qed.

(** src/ef-ptp.c:690-698 *)
Definition HDR_ANNOUNCE_0 : hdr :=
  MkHdr "ptp-announce" 35063 0 ANNOUNCE_FIELDS FL_ptp HP_fields.

(** src/ef-ptp.c:786-787 *)
Definition HDR_ANNOUNCE_init : out hdr :=
    dv "hdr-messageType" "11"
    (Ret (def_offset HDR_ANNOUNCE_0)).

Definition HDR_ANNOUNCE : hdr := Eval vm_compute in the_hdr HDR_ANNOUNCE_init.

Lemma HDR_ANNOUNCE_ok : HDR_ANNOUNCE_init = Ret HDR_ANNOUNCE.
Proof. vm_compute. reflexivity. Qed.

(** src/ef-ptp.c:733-741 *)
Definition HDR_TLV_ORG_0 : hdr :=
  MkHdr "ptp-tlv-org" 6 0 TLV_ORG_FIELDS FL_ptp_tlv HP_fields.

(** src/ef-ptp.c:789-790 *)
Definition HDR_TLV_ORG_init : out hdr :=
    dv "tlv-type" "3"
    (Ret (def_offset HDR_TLV_ORG_0)).

Definition HDR_TLV_ORG : hdr := Eval vm_compute in the_hdr HDR_TLV_ORG_init.

Lemma HDR_TLV_ORG_ok : HDR_TLV_ORG_init = Ret HDR_TLV_ORG.
Proof. vm_compute. reflexivity. Qed.

(** src/ef-ptp.c:752-760 *)
Definition HDR_TLV_PATH_0 : hdr :=
  MkHdr "ptp-tlv-path" 6 0 TLV_PATH_FIELDS FL_ptp_tlv HP_fields.

(** src/ef-ptp.c:792-793 *)
Definition HDR_TLV_PATH_init : out hdr :=
    dv "tlv-path" "8"
    (Ret (def_offset HDR_TLV_PATH_0)).

Definition HDR_TLV_PATH : hdr := Eval vm_compute in the_hdr HDR_TLV_PATH_init.

Lemma HDR_TLV_PATH_ok : HDR_TLV_PATH_init = Ret HDR_TLV_PATH.
Proof. vm_compute. reflexivity. Qed.


(** ** src/ef-profinet.c *)

(** src/ef-profinet.c:44-113 *)
Definition PNET_RTC_FIELDS : list field :=
  [ fld "frameid" 16 0 FP_default (* 45 *);
    fld "data" 320 0 FP_profinet (* 57 *);
    fld "cycle" 16 0 FP_default (* 63 *);
    fld "ignore" 1 0 FP_default (* 68 *);
    fld "reserved2" 1 0 FP_default (* 73 *);
    fld "station-ok" 1 0 FP_default (* 78 *);
    fld "provider-state-run" 1 0 FP_default (* 83 *);
    fld "reserved1" 1 0 FP_default (* 88 *);
    fld "data-valid" 1 0 FP_default (* 93 *);
    fld "redundancy" 1 0 FP_default (* 98 *);
    fld "primary" 1 0 FP_default (* 103 *);
    fld "transfer-status" 8 0 FP_default (* 108 *) ].

(** src/ef-profinet.c:115-122 *)
Definition HDR_PNET_RTC_0 : hdr :=
  MkHdr "profinet-rtc" 34962 0 PNET_RTC_FIELDS FL_none HP_fields.

(** src/ef-profinet.c:126-131 *)
Definition HDR_PNET_RTC_init : out hdr :=
    dv "data" "00"
    (dv "primary" "1"
    (dv "data-valid" "1"
    (dv "provider-state-run" "1"
    (dv "station-ok" "1"
    (Ret (def_offset HDR_PNET_RTC_0)))))).

Definition HDR_PNET_RTC : hdr := Eval vm_compute in the_hdr HDR_PNET_RTC_init.

Lemma HDR_PNET_RTC_ok : HDR_PNET_RTC_init = Ret HDR_PNET_RTC.
Proof. vm_compute. reflexivity. Qed.


(** ** src/ef-opcua.c *)

(** src/ef-opcua.c:17-83 *)
Definition OPC_UA_FIELDS : list field :=
  [ fld "flags-flags1" 1 0 FP_default (* 18 *);
    fld "flags-pl-hdr" 1 0 FP_default (* 21 *);
    fld "flags-grp-hdr" 1 0 FP_default (* 24 *);
    fld "flags-pub-id" 1 0 FP_default (* 27 *);
    fld "version" 4 0 FP_default (* 30 *);
    fld "flags1-flags2" 1 0 FP_default (* 33 *);
    fld "flags1-pico-seconds" 1 0 FP_default (* 36 *);
    fld "flags1-timestamp" 1 0 FP_default (* 39 *);
    fld "flags1-security" 1 0 FP_default (* 42 *);
    fld "flags1-dsc-id" 1 0 FP_default (* 45 *);
    fld "flags1-pub-id-type" 3 0 FP_default (* 48 *);
    fld "pub-id" 16 0 FP_opc16 (* 51 *);
    fld "gflags-rsvd" 4 0 FP_default (* 55 *);
    fld "gflags-seq-num" 1 0 FP_default (* 58 *);
    fld "gflags-nm-num" 1 0 FP_default (* 61 *);
    fld "gflags-gversion" 1 0 FP_default (* 64 *);
    fld "gflags-wg-id" 1 0 FP_default (* 67 *);
    fld "wg-id" 16 0 FP_opc16 (* 70 *);
    fld "gversion" 32 0 FP_default (* 74 *);
    fld "nm-num" 16 0 FP_default (* 77 *);
    fld "seq-num" 16 0 FP_default (* 80 *) ].

(** src/ef-opcua.c:85-92 *)
Definition HDR_OPC_UA_0 : hdr :=
  MkHdr "opc-ua" 46636 0 OPC_UA_FIELDS FL_none HP_fields.

(** src/ef-opcua.c:95-105 *)
Definition HDR_OPC_UA_init : out hdr :=
    dv "gflags-seq-num" "1"
    (dv "gflags-nm-num" "1"
    (dv "gflags-gversion" "1"
    (dv "gflags-wg-id" "1"
    (dv "flags1-flags2" "1"
    (dv "flags1-pub-id-type" "1"
    (dv "flags-flags1" "1"
    (dv "flags-grp-hdr" "1"
    (dv "flags-pub-id" "1"
    (dv "version" "1"
    (Ret (def_offset HDR_OPC_UA_0))))))))))).

Definition HDR_OPC_UA : hdr := Eval vm_compute in the_hdr HDR_OPC_UA_init.

Lemma HDR_OPC_UA_ok : HDR_OPC_UA_init = Ret HDR_OPC_UA.
Proof. vm_compute. reflexivity. Qed.


(** ** src/ef-coap.c *)

(** src/ef-coap.c:128-155 *)
Definition COAP_FIELDS : list field :=
  [ fld "ver" 2 0 FP_default (* 130 *);
    fld "type" 2 0 FP_default (* 134 *);
    fld "tkl" 4 0 FP_default (* 138 *);
    fld "code" 8 0 FP_coap_code (* 142 *);
    fld "msgid" 16 0 FP_default (* 147 *);
    fld "token" 0 0 FP_coap_token (* 151 *) ].

(** src/ef-coap.c:274-286 *)
Definition COAP_OPT_FIELDS : list field :=
  [ fld "num" 16 0 FP_default (* 276 *);
    fld "val" 0 0 FP_coap_opt_val (* 281 *) ].

(** src/ef-coap.c:301-307 *)
Definition COAP_PARMS_FIELDS : list field :=
  [ fld "par" 0 0 FP_coap_parms (* 303 *) ].

(** src/ef-coap.c:157-164 *)
Definition HDR_COAP_0 : hdr :=
  MkHdr "coap" 0 0 COAP_FIELDS FL_coap HP_fields.

(** src/ef-coap.c:320-325 *)
Definition HDR_COAP_init : out hdr :=
    dv "msgid" "0"
    (dv "code" "0"
    (dv "tkl" "0"
    (dv "type" "0"
    (dv "ver" "1"
    (Ret (def_offset HDR_COAP_0)))))).

Definition HDR_COAP : hdr := Eval vm_compute in the_hdr HDR_COAP_init.

Lemma HDR_COAP_ok : HDR_COAP_init = Ret HDR_COAP.
Proof. vm_compute. reflexivity. Qed.

(** src/ef-coap.c:288-295 *)
Definition HDR_COAP_OPTIONS_0 : hdr :=
  MkHdr "coap-opt" 0 0 COAP_OPT_FIELDS FL_coap_opt HP_fields.

(** src/ef-coap.c:327-327 *)
Definition HDR_COAP_OPTIONS_init : out hdr :=
    Ret (def_offset HDR_COAP_OPTIONS_0).

Definition HDR_COAP_OPTIONS : hdr := Eval vm_compute in the_hdr HDR_COAP_OPTIONS_init.

Lemma HDR_COAP_OPTIONS_ok : HDR_COAP_OPTIONS_init = Ret HDR_COAP_OPTIONS.
Proof. vm_compute. reflexivity. Qed.

(** src/ef-coap.c:309-316 *)
Definition HDR_COAP_PARMS_0 : hdr :=
  MkHdr "coap-parms" 0 0 COAP_PARMS_FIELDS FL_none HP_fields.

(** src/ef-coap.c:328-328 *)
Definition HDR_COAP_PARMS_init : out hdr :=
    Ret (def_offset HDR_COAP_PARMS_0).

Definition HDR_COAP_PARMS : hdr := Eval vm_compute in the_hdr HDR_COAP_PARMS_init.

Lemma HDR_COAP_PARMS_ok : HDR_COAP_PARMS_init = Ret HDR_COAP_PARMS.
Proof. vm_compute. reflexivity. Qed.


(** ** src/ef-sv.c *)

(** src/ef-sv.c:39-73 *)
Definition SV_FIELDS : list field :=
  [ fld "path" 4 0 FP_default (* 40 *);
    fld "ver" 12 0 FP_default (* 43 *);
    fld "seqn" 16 0 FP_default (* 46 *);
    fld "tlv1_type" 8 0 FP_default (* 49 *);
    fld "tlv1_len" 8 0 FP_default (* 52 *);
    fld "tlv1_mac" 48 0 FP_default (* 55 *);
    fld "tlv2_type" 8 0 FP_default (* 58 *);
    fld "tlv2_len" 8 0 FP_default (* 61 *);
    fld "tlv2_mac" 48 0 FP_default (* 64 *);
    fld "tlv0_type" 8 0 FP_default (* 67 *);
    fld "tlv0_len" 8 0 FP_default (* 70 *) ].

(** src/ef-sv.c:75-83 *)
Definition HDR_SV_0 : hdr :=
  MkHdr "sv" 35067 0 SV_FIELDS FL_sv HP_fields.

(** src/ef-sv.c:86-91 *)
Definition HDR_SV_init : out hdr :=
    dv "tlv2_type" "30"
    (dv "tlv2_len" "6"
    (dv "tlv1_len" "6"
    (dv "tlv1_type" "20"
    (dv "ver" "1"
    (Ret (def_offset HDR_SV_0)))))).

Definition HDR_SV : hdr := Eval vm_compute in the_hdr HDR_SV_init.

Lemma HDR_SV_ok : HDR_SV_init = Ret HDR_SV.
Proof. vm_compute. reflexivity. Qed.


(** ** hdr_tmpls, in the order of the enum hdr_tmpl (src/ef.h:199-257) *)
Definition hdr_tmpls : list hdr :=
  [ HDR_SP_OC1;
    HDR_LP_OC1;
    HDR_IFH_OC1;
    HDR_EFH_OC1;
    HDR_SP_JR2;
    HDR_LP_JR2;
    HDR_IFH_JR2;
    HDR_IFH_FA;
    HDR_IFH_CRCL;
    HDR_EFH_CRCL;
    HDR_IFH_MAS;
    HDR_IFH_LA;
    HDR_ETH;
    HDR_CTAG;
    HDR_STAG;
    HDR_RTAG;
    HDR_ARP;
    HDR_IPV4;
    HDR_IPV6;
    HDR_ICMP;
    HDR_IGMP;
    HDR_IGMPV3_GROUP;
    HDR_MLD;
    HDR_MLDV2_GROUP;
    HDR_UDP;
    HDR_TCP;
    HDR_PAYLOAD;
    HDR_PADDING;
    HDR_MRP_TST;
    HDR_MRP_TOPO;
    HDR_MRP_LNK;
    HDR_MRP_PROP_NACK;
    HDR_CCM;
    HDR_LAPS;
    HDR_LB;
    HDR_LT;
    HDR_RAPS;
    HDR_SYNC;
    HDR_FOLLOW_UP;
    HDR_REQUEST;
    HDR_RESPONSE;
    HDR_PEER_REQUEST;
    HDR_PEER_RESPONSE;
    HDR_PEER_RESPONSE_FOLLOW_UP;
    HDR_ANNOUNCE;
    HDR_TLV_ORG;
    HDR_TLV_PATH;
    HDR_PNET_RTC;
    HDR_OPC_UA;
    HDR_PRP_RCT;
    HDR_HSR_TAG;
    HDR_COAP;
    HDR_COAP_OPTIONS;
    HDR_COAP_PARMS;
    HDR_SV ].
