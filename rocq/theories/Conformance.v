(** GENERATED by tools/gen_conformance.py -- do not edit.

    The project's own test vectors (/repo/test), evaluated on the model.  These
    are tests of the model against the expectations the project publishes, not
    proofs of properties. *)

From Verif Require Import Exec.

(** "ef hex <words>": the printed frame, and the mask if there is one. *)
Definition run_hex (ws : list string) : option (string * option string) :=
  match argc_cmds ("hex" :: ws) (MkEnv (fun _ => true) []) with
  | Ret (0, [EvHex b m]) =>
      Some (hex_str b, match m with Some m => Some (hex_str m) | None => None end)
  | _ => None
  end.

Definition run_bytes (s : string) (n : Z) : option string :=
  match parse_bytes s n with
  | Ret (Some b) => Some (hex_str b)
  | _ => None
  end.

Definition run_write (vs : Z) (v : string) (w o size : Z) : option string :=
  match parse_bytes v vs with
  | Ret (Some val) =>
      match hdr_write_field (balloc size) 0 (fld "" w o FP_default) val with
      | Ret b => Some (hex_str b)
      | _ => None
      end
  | _ => None
  end.

Definition run_var (ws : list string) : option string :=
  match parse_var_bytes ws with
  | Ret (_, Some b) => Some (hex_str b)
  | _ => None
  end.

(** test/parser-tests.rb:53 *)
Example rb_001 : run_hex ["eth"] =
  Some ("ffffffffffff000000000001aaaa00000000000000000000000000000000000000000000000000000000000000000000000000000000000000000000", None).
Proof. vm_compute. reflexivity. Qed.

(** test/parser-tests.rb:54 *)
Example rb_002 : run_hex ["eth"; "dmac"; "0:1::2"; "smac"; "123"] =
  Some ("00010000000200000000007baaaa00000000000000000000000000000000000000000000000000000000000000000000000000000000000000000000", None).
Proof. vm_compute. reflexivity. Qed.

(** test/parser-tests.rb:55 *)
Example rb_003 : run_hex ["eth"; "dmac"; "1"; "smac"; "2"; "ctag"; "vid"; "100"] =
  Some ("000000000001000000000002810000640000000000000000000000000000000000000000000000000000000000000000000000000000000000000000", None).
Proof. vm_compute. reflexivity. Qed.

(** test/parser-tests.rb:56 *)
Example rb_004 : run_hex ["eth"; "dmac"; "1"; "smac"; "2"; "ctag"; "pcp"; "4"; "vid"; "0x100"; "ctag"; "vid"; "100"] =
  Some ("000000000001000000000002810081008100006400000000000000000000000000000000000000000000000000000000000000000000000000000000", None).
Proof. vm_compute. reflexivity. Qed.

(** test/parser-tests.rb:57 *)
Example rb_005 : run_hex ["eth"; "dmac"; "1"; "smac"; "2"; "ctag"; "dei"; "1"; "pcp"; "4"; "vid"; "0x100"; "ctag"; "vid"; "100"] =
  Some ("000000000001000000000002810091008100006400000000000000000000000000000000000000000000000000000000000000000000000000000000", None).
Proof. vm_compute. reflexivity. Qed.

(** test/parser-tests.rb:58 *)
Example rb_006 : run_hex ["eth"; "dmac"; "1"; "smac"; "2"; "stag"; "dei"; "1"; "pcp"; "4"; "vid"; "0x100"; "ctag"; "vid"; "100"] =
  Some ("00000000000100000000000288a891008100006400000000000000000000000000000000000000000000000000000000000000000000000000000000", None).
Proof. vm_compute. reflexivity. Qed.

(** test/parser-tests.rb:60 *)
Example rb_007 : run_hex ["eth"; "dmac"; "1"; "smac"; "2"; "data"; "pattern"; "cnt"; "1"] =
  Some ("000000000001000000000002000000000000000000000000000000000000000000000000000000000000000000000000000000000000000000000000", None).
Proof. vm_compute. reflexivity. Qed.

(** test/parser-tests.rb:61 *)
Example rb_008 : run_hex ["eth"; "dmac"; "1"; "smac"; "2"; "data"; "pattern"; "cnt"; "2"] =
  Some ("000000000001000000000002000000010000000000000000000000000000000000000000000000000000000000000000000000000000000000000000", None).
Proof. vm_compute. reflexivity. Qed.

(** test/parser-tests.rb:62 *)
Example rb_009 : run_hex ["eth"; "dmac"; "1"; "smac"; "2"; "data"; "pattern"; "cnt"; "3"] =
  Some ("000000000001000000000002000000010200000000000000000000000000000000000000000000000000000000000000000000000000000000000000", None).
Proof. vm_compute. reflexivity. Qed.

(** test/parser-tests.rb:63 *)
Example rb_010 : run_hex ["eth"; "dmac"; "1"; "smac"; "2"; "data"; "pattern"; "cnt"; "4"] =
  Some ("000000000001000000000002000000010203000000000000000000000000000000000000000000000000000000000000000000000000000000000000", None).
Proof. vm_compute. reflexivity. Qed.

(** test/parser-tests.rb:64 *)
Example rb_011 : run_hex ["eth"; "dmac"; "1"; "smac"; "2"; "data"; "pattern"; "cnt"; "8"] =
  Some ("000000000001000000000002000000010203040506070000000000000000000000000000000000000000000000000000000000000000000000000000", None).
Proof. vm_compute. reflexivity. Qed.

(** test/parser-tests.rb:65 *)
Example rb_012 : run_hex ["eth"; "dmac"; "1"; "smac"; "2"; "data"; "pattern"; "cnt"; "0x20"] =
  Some ("0000000000010000000000020000000102030405060708090a0b0c0d0e0f101112131415161718191a1b1c1d1e1f0000000000000000000000000000", None).
Proof. vm_compute. reflexivity. Qed.

(** test/parser-tests.rb:66 *)
Example rb_013 : run_hex ["eth"; "dmac"; "1"; "smac"; "2"; "data"; "pattern"; "cnt"; "0x40"] =
  Some ("0000000000010000000000020000000102030405060708090a0b0c0d0e0f101112131415161718191a1b1c1d1e1f202122232425262728292a2b2c2d2e2f303132333435363738393a3b3c3d3e3f", None).
Proof. vm_compute. reflexivity. Qed.

(** test/parser-tests.rb:68 *)
Example rb_014 : run_hex ["eth"; "dmac"; "1"; "smac"; "2"; "ipv4"; "sip"; "1"; "dip"; "10.0.99.2"; "data"; "pattern"; "cnt"; "0x40"] =
  Some ("000000000001000000000002080045000054000000001f002ea8000000010a006302000102030405060708090a0b0c0d0e0f101112131415161718191a1b1c1d1e1f202122232425262728292a2b2c2d2e2f303132333435363738393a3b3c3d3e3f", None).
Proof. vm_compute. reflexivity. Qed.

(** test/parser-tests.rb:69 *)
Example rb_015 : run_hex ["eth"; "dmac"; "1"; "smac"; "2"; "ipv4"; "sip"; "1"; "dip"; "10.0.99.2"; "udp"; "data"; "pattern"; "cnt"; "0x40"] =
  Some ("00000000000100000000000208004500005c000000001f112e8f000000010a006302000000000048ae57000102030405060708090a0b0c0d0e0f101112131415161718191a1b1c1d1e1f202122232425262728292a2b2c2d2e2f303132333435363738393a3b3c3d3e3f", None).
Proof. vm_compute. reflexivity. Qed.

(** test/parser-tests.rb:70 *)
Example rb_016 : run_hex ["eth"; "dmac"; "1"; "smac"; "2"; "ipv4"; "sip"; "1"; "dip"; "10.0.99.2"; "udp"; "data"; "ascii"; "Hello World!"] =
  Some ("000000000001000000000002080045000028000000001f112ec3000000010a00630200000000001440d448656c6c6f20576f726c6421000000000000", None).
Proof. vm_compute. reflexivity. Qed.

(** test/parser-tests.rb:71 *)
Example rb_017 : run_hex ["eth"; "dmac"; "1"; "smac"; "2"; "ipv4"; "sip"; "1"; "dip"; "10.0.99.2"; "udp"; "data"; "ascii0"; "Hello World!"] =
  Some ("000000000001000000000002080045000029000000001f112ec2000000010a00630200000000001540d248656c6c6f20576f726c6421000000000000", None).
Proof. vm_compute. reflexivity. Qed.

(** test/parser-tests.rb:73 *)
Example rb_018 : run_hex ["data"; "hex"; "000000000000000000000000080045000028000000001f119bc60000000000000000000000000014add748656c6c6f20576f726c6421000000000000"] =
  Some ("000000000000000000000000080045000028000000001f119bc60000000000000000000000000014add748656c6c6f20576f726c6421000000000000", None).
Proof. vm_compute. reflexivity. Qed.

(** test/parser-tests.rb:74 *)
Example rb_019 : run_hex ["eth"; "ipv4"; "udp"; "data"; "ascii"; "Hello World!"] =
  Some ("ffffffffffff000000000001080045000028000000001f119bc60000000000000000000000000014add748656c6c6f20576f726c6421000000000000", None).
Proof. vm_compute. reflexivity. Qed.

(** test/parser-tests.rb:77 *)
Example rb_020 : run_hex ["sp-oc1"; "ifh-oc1"; "bypass"; "1"] =
  Some ("8880000a8000000000000000000000000000000000000000000000000000000000000000000000000000000000000000000000000000000000000000", None).
Proof. vm_compute. reflexivity. Qed.

(** test/parser-tests.rb:79 *)
Example rb_021 : run_hex ["sp-oc1"; "et"; "0x1234"; "id"; "0x5678"; "ifh-oc1"; "bypass"; "1"] =
  Some ("123456788000000000000000000000000000000000000000000000000000000000000000000000000000000000000000000000000000000000000000", None).
Proof. vm_compute. reflexivity. Qed.

(** test/parser-tests.rb:83 *)
Example rb_022 : run_hex ["lp-oc1"; "ifh-oc1"; "bypass"; "1"] =
  Some ("ffffffffffffffffffffffff8880000a8000000000000000000000000000000000000000000000000000000000000000000000000000000000000000", None).
Proof. vm_compute. reflexivity. Qed.

(** test/parser-tests.rb:85 *)
Example rb_023 : run_hex ["lp-oc1"; "dmac"; "01:02:03:04:05:06"; "smac"; "a1:a2:a3:a4:a5:a6"; "et"; "0x5678"; "id"; "0x1234"; "ifh-oc1"; "bypass"; "1"] =
  Some ("010203040506a1a2a3a4a5a6567812348000000000000000000000000000000000000000000000000000000000000000000000000000000000000000", None).
Proof. vm_compute. reflexivity. Qed.

(** test/parser-tests.rb:89 *)
Example rb_024 : run_hex ["ifh-oc1"; "eth"; "dmac"; "ff::ff"] =
  Some ("00000000000000000000000000000000ff00000000ff000000000001aaaa000000000000000000000000000000000000000000000000000000000000", None).
Proof. vm_compute. reflexivity. Qed.

(** test/parser-tests.rb:91 *)
Example rb_025 : run_hex ["ifh-oc1"; "bypass"; "1"; "b1-rew-op"; "0x1ff"; "res1"; "1"] =
  Some ("bfe000000000001000000000000000000000000000000000000000000000000000000000000000000000000000000000000000000000000000000000", None).
Proof. vm_compute. reflexivity. Qed.

(** test/parser-tests.rb:93 *)
Example rb_026 : run_hex ["ifh-oc1"; "bypass"; "1"; "b1-rew-mac"; "1"; "res1"; "1"] =
  Some ("c00000000000001000000000000000000000000000000000000000000000000000000000000000000000000000000000000000000000000000000000", None).
Proof. vm_compute. reflexivity. Qed.

(** test/parser-tests.rb:95 *)
Example rb_027 : run_hex ["ifh-oc1"; "bypass"; "0"; "b0-masq-port"; "0xf"; "res1"; "1"] =
  Some ("3c0000000000001000000000000000000000000000000000000000000000000000000000000000000000000000000000000000000000000000000000", None).
Proof. vm_compute. reflexivity. Qed.

(** test/parser-tests.rb:97 *)
Example rb_028 : run_hex ["ifh-oc1"; "bypass"; "0"; "b0-masq"; "1"; "res1"; "1"] =
  Some ("400000000000001000000000000000000000000000000000000000000000000000000000000000000000000000000000000000000000000000000000", None).
Proof. vm_compute. reflexivity. Qed.

(** test/parser-tests.rb:99 *)
Example rb_029 : run_hex ["ifh-oc1"; "rew-val"; "0xffffffff"; "res2"; "1"; "res3"; "1"; "res4"; "0x3f"; "pop-cnt"; "3"; "qos-class"; "7"; "pcp"; "7"; "vid"; "0xfff"] =
  Some ("001fffffffe000000000821fb00eefff0000000000000000000000000000000000000000000000000000000000000000000000000000000000000000", None).
Proof. vm_compute. reflexivity. Qed.

(** test/parser-tests.rb:101 *)
Example rb_030 : run_hex ["ifh-oc1"; "dest"; "0xfff"; "src-port"; "0xf"; "trfm-timer"; "0xf"; "dp"; "1"; "cpuq"; "0xff"; "tag-type"; "1"; "dei"; "1"] =
  Some ("000000000000000fff0079e04ff110000000000000000000000000000000000000000000000000000000000000000000000000000000000000000000", None).
Proof. vm_compute. reflexivity. Qed.

(** test/parser-tests.rb:105 *)
Example rb_031 : run_hex ["efh-oc1"; "eth"; "dmac"; "ff::ff"] =
  Some ("00000000000000000000000000000000ff00000000ff000000000001aaaa000000000000000000000000000000000000000000000000000000000000", None).
Proof. vm_compute. reflexivity. Qed.

(** test/parser-tests.rb:107 *)
Example rb_032 : run_hex ["efh-oc1"; "res1"; "1"; "rew-op"; "0x1ff"; "llen"; "0x3f"; "res2"; "0xffffff"; "acl-id"; "0x3f"; "sflow-id"; "0xf"; "dp"; "1"; "cpuq"; "0xff"; "tag-type"; "1"; "dei"; "1"] =
  Some ("bfe00000001f807ffe0007ef4ff110000000000000000000000000000000000000000000000000000000000000000000000000000000000000000000", None).
Proof. vm_compute. reflexivity. Qed.

(** test/parser-tests.rb:109 *)
Example rb_033 : run_hex ["efh-oc1"; "rew-mac"; "1"; "rew-val"; "0xffffffff"; "wlen"; "0xff"; "src-port"; "0xf"; "res3"; "1"; "acl-hit"; "1"; "lrn-flags"; "3"; "qos-class"; "7"; "pcp"; "7"; "vid"; "0xfff"] =
  Some ("401fffffffe07f8000007810b00eefff0000000000000000000000000000000000000000000000000000000000000000000000000000000000000000", None).
Proof. vm_compute. reflexivity. Qed.

(** test/parser-tests.rb:113 *)
Example rb_034 : run_hex ["sp-jr2"; "ifh-jr2"; "ts"; "0xffffffff"] =
  Some ("ffffffffffffffffffffffff88800009ffffffff00000000000000008000000000000000000000000000000000000000000000000000000000000000", None).
Proof. vm_compute. reflexivity. Qed.

(** test/parser-tests.rb:115 *)
Example rb_035 : run_hex ["sp-jr2"; "dmac"; "01:02:03:04:05:06"; "smac"; "b1:b2:b3:b4:b5:b6"; "et"; "0x9876"; "id"; "0x5432"; "ifh-jr2"; "ts"; "0xffffffff"] =
  Some ("010203040506b1b2b3b4b5b698765432ffffffff00000000000000008000000000000000000000000000000000000000000000000000000000000000", None).
Proof. vm_compute. reflexivity. Qed.

(** test/parser-tests.rb:119 *)
Example rb_036 : run_hex ["lp-jr2"; "ifh-jr2"; "ts"; "0xffffffff"] =
  Some ("ffffffffffffffffffffffff8100000188800009ffffffff000000000000000080000000000000000000000000000000000000000000000000000000", None).
Proof. vm_compute. reflexivity. Qed.

(** test/parser-tests.rb:121 *)
Example rb_037 : run_hex ["lp-jr2"; "dmac"; "01:02:03:04:05:06"; "smac"; "b1:b2:b3:b4:b5:b6"; "tpid"; "0x2222"; "pcp"; "7"; "dei"; "1"; "vid"; "0xabe"; "et"; "0x9876"; "id"; "0x5432"; "ifh-jr2"; "ts"; "0xffffffff"] =
  Some ("010203040506b1b2b3b4b5b62222fabe98765432ffffffff000000000000000080000000000000000000000000000000000000000000000000000000", None).
Proof. vm_compute. reflexivity. Qed.

(** test/parser-tests.rb:125 *)
Example rb_038 : run_hex ["ifh-jr2"; "eth"; "dmac"; "ff::ff"] =
  Some ("00000000000000000000000080000000000000000000000000000000ff00000000ff000000000001aaaa000000000000000000000000000000000000", None).
Proof. vm_compute. reflexivity. Qed.

(** test/parser-tests.rb:127 *)
Example rb_039 : run_hex ["ifh-jr2"; "ts"; "0xffffffff"; "de-rt-fwd"; "1"; "de-tag-tpid"; "3"; "de-gen-idx"; "0x3ff"; "de-prot-active"; "1"; "de-pdu-type"; "7"; "de-mpls-ttl"; "0xff"; "de-mpls-tc"; "7"; "de-w16-pop-cnt"; "0x1f"] =
  Some ("ffffffff2cffd0380007fb9f800000000000000000000000000000000000000000000000000000000000000000000000000000000000000000000000", None).
Proof. vm_compute. reflexivity. Qed.

(** test/parser-tests.rb:129 *)
Example rb_040 : run_hex ["ifh-jr2"; "de-rsv1"; "3"; "de-swap-mac"; "1"; "de-rsv2"; "3"; "de-gen-idx-mode"; "1"; "de-pdu-w16-offset"; "0x3f"; "de-cl-rslt"; "0xffff"; "de-mpls-sbit"; "1"; "de-type-after-pop"; "3"] =
  Some ("00000000d3002fc7fff80460800000000000000000000000000000000000000000000000000000000000000000000000000000000000000000000000", None).
Proof. vm_compute. reflexivity. Qed.

(** test/parser-tests.rb:131 *)
Example rb_041 : run_hex ["ifh-jr2"; "ts"; "0xffffffff"; "di-dst-port-mask"; "0x1fffffffffffff"] =
  Some ("ffffffff001fffffffffffff800000000000000000000000000000000000000000000000000000000000000000000000000000000000000000000000", None).
Proof. vm_compute. reflexivity. Qed.

(** test/parser-tests.rb:133 *)
Example rb_042 : run_hex ["ifh-jr2"; "di-rsv1"; "0x7ff"] =
  Some ("00000000ffe0000000000000800000000000000000000000000000000000000000000000000000000000000000000000000000000000000000000000", None).
Proof. vm_compute. reflexivity. Qed.

(** test/parser-tests.rb:135 *)
Example rb_043 : run_hex ["ifh-jr2"; "ts"; "0xffffffff"; "du-erleg"; "0x7f"] =
  Some ("ffffffff007f000000000000800000000000000000000000000000000000000000000000000000000000000000000000000000000000000000000000", None).
Proof. vm_compute. reflexivity. Qed.

(** test/parser-tests.rb:137 *)
Example rb_044 : run_hex ["ifh-jr2"; "du-rsv1"; "0x1ff"; "du-next-hop-dmac"; "11:22:33:44:55:66"] =
  Some ("00000000ff80112233445566800000000000000000000000000000000000000000000000000000000000000000000000000000000000000000000000", None).
Proof. vm_compute. reflexivity. Qed.

(** test/parser-tests.rb:139 *)
Example rb_045 : run_hex ["ifh-jr2"; "ts"; "0xffffffff"; "dm-l3mc-grp-idx"; "0x3ff"; "dm-copy-cnt"; "0x7f"] =
  Some ("ffffffff0000000000ffc07f800000000000000000000000000000000000000000000000000000000000000000000000000000000000000000000000", None).
Proof. vm_compute. reflexivity. Qed.

(** test/parser-tests.rb:141 *)
Example rb_046 : run_hex ["ifh-jr2"; "dm-rsv1"; "0xffffffffff"; "dm-erleg"; "0x7f"] =
  Some ("00000000ffffffffff003f80800000000000000000000000000000000000000000000000000000000000000000000000000000000000000000000000", None).
Proof. vm_compute. reflexivity. Qed.

(** test/parser-tests.rb:143 *)
Example rb_047 : run_hex ["ifh-jr2"; "v-rsv1"; "0"; "vm0-ac"; "0xf"] =
  Some ("000000000000000000000000000f00000000000000000000000000000000000000000000000000000000000000000000000000000000000000000000", None).
Proof. vm_compute. reflexivity. Qed.

(** test/parser-tests.rb:145 *)
Example rb_048 : run_hex ["ifh-jr2"; "vm0-rsv1"; "0x7ff"] =
  Some ("000000000000000000000000fff000000000000000000000000000000000000000000000000000000000000000000000000000000000000000000000", None).
Proof. vm_compute. reflexivity. Qed.

(** test/parser-tests.rb:147 *)
Example rb_049 : run_hex ["ifh-jr2"; "v-rsv1"; "0"; "vm1-isdx"; "0xfff"] =
  Some ("0000000000000000000000000fff00000000000000000000000000000000000000000000000000000000000000000000000000000000000000000000", None).
Proof. vm_compute. reflexivity. Qed.

(** test/parser-tests.rb:149 *)
Example rb_050 : run_hex ["ifh-jr2"; "vm1-cosid"; "7"; "v-rsv2"; "3"] =
  Some ("000000000000000000000000f000c0000000000000000000000000000000000000000000000000000000000000000000000000000000000000000000", None).
Proof. vm_compute. reflexivity. Qed.

(** test/parser-tests.rb:151 *)
Example rb_051 : run_hex ["ifh-jr2"; "vq-cl-dp"; "3"; "vq-cl-qos"; "7"; "v-rsv3"; "1"] =
  Some ("000000000000000000000000800037400000000000000000000000000000000000000000000000000000000000000000000000000000000000000000", None).
Proof. vm_compute. reflexivity. Qed.

(** test/parser-tests.rb:153 *)
Example rb_052 : run_hex ["ifh-jr2"; "vq-sp"; "1"; "vq-ingr-drop-mode"; "1"] =
  Some ("000000000000000000000000800008800000000000000000000000000000000000000000000000000000000000000000000000000000000000000000", None).
Proof. vm_compute. reflexivity. Qed.

(** test/parser-tests.rb:155 *)
Example rb_053 : run_hex ["ifh-jr2"; "vg-rsv1"; "1"; "vg-lrn-mode"; "1"; "v-rsv4"; "1"] =
  Some ("000000000000000000000000800000208800000000000000000000000000000000000000000000000000000000000000000000000000000000000000", None).
Proof. vm_compute. reflexivity. Qed.

(** test/parser-tests.rb:157 *)
Example rb_054 : run_hex ["ifh-jr2"; "vg-ttl"; "0x1f"; "vg-fwd-mode"; "7"] =
  Some ("0000000000000000000000008000001f7000000000000000000000000000000000000000000000000000000000000000000000000000000000000000", None).
Proof. vm_compute. reflexivity. Qed.

(** test/parser-tests.rb:159 *)
Example rb_055 : run_hex ["ifh-jr2"; "vdl-dst-port-type"; "1"; "vdl-dst-pn"; "0x1f"] =
  Some ("00000000000000000000000080000000041f000000000000000000000000000000000000000000000000000000000000000000000000000000000000", None).
Proof. vm_compute. reflexivity. Qed.

(** test/parser-tests.rb:161 *)
Example rb_056 : run_hex ["ifh-jr2"; "vdl-dst-upsid"; "0x1f"] =
  Some ("0000000000000000000000008000000003e0000000000000000000000000000000000000000000000000000000000000000000000000000000000000", None).
Proof. vm_compute. reflexivity. Qed.

(** test/parser-tests.rb:163 *)
Example rb_057 : run_hex ["ifh-jr2"; "vdp-rsv1"; "1"; "vdp-dst-pn"; "0x1f"] =
  Some ("00000000000000000000000080000000041f000000000000000000000000000000000000000000000000000000000000000000000000000000000000", None).
Proof. vm_compute. reflexivity. Qed.

(** test/parser-tests.rb:165 *)
Example rb_058 : run_hex ["ifh-jr2"; "vdp-dst-upsid"; "0x1f"] =
  Some ("0000000000000000000000008000000003e0000000000000000000000000000000000000000000000000000000000000000000000000000000000000", None).
Proof. vm_compute. reflexivity. Qed.

(** test/parser-tests.rb:167 *)
Example rb_059 : run_hex ["ifh-jr2"; "vdm-rsv1"; "1"] =
  Some ("000000000000000000000000800000000400000000000000000000000000000000000000000000000000000000000000000000000000000000000000", None).
Proof. vm_compute. reflexivity. Qed.

(** test/parser-tests.rb:169 *)
Example rb_060 : run_hex ["ifh-jr2"; "vdm-mc-idx"; "0x3ff"] =
  Some ("0000000000000000000000008000000003ff000000000000000000000000000000000000000000000000000000000000000000000000000000000000", None).
Proof. vm_compute. reflexivity. Qed.

(** test/parser-tests.rb:171 *)
Example rb_061 : run_hex ["ifh-jr2"; "vdu-rsv1"; "1"; "vdu-rsv2"; "1"] =
  Some ("000000000000000000000000800000000410000000000000000000000000000000000000000000000000000000000000000000000000000000000000", None).
Proof. vm_compute. reflexivity. Qed.

(** test/parser-tests.rb:173 *)
Example rb_062 : run_hex ["ifh-jr2"; "vdu-dst-upsid"; "0x1f"; "vdu-dst-pn"; "0xf"] =
  Some ("0000000000000000000000008000000003ef000000000000000000000000000000000000000000000000000000000000000000000000000000000000", None).
Proof. vm_compute. reflexivity. Qed.

(** test/parser-tests.rb:175 *)
Example rb_063 : run_hex ["ifh-jr2"; "vda-rsv1"; "1"; "vda-rsv2"; "0x1f"] =
  Some ("0000000000000000000000008000000005f0000000000000000000000000000000000000000000000000000000000000000000000000000000000000", None).
Proof. vm_compute. reflexivity. Qed.

(** test/parser-tests.rb:177 *)
Example rb_064 : run_hex ["ifh-jr2"; "vda-ttl-keep"; "1"; "vda-dst-pn"; "0xf"] =
  Some ("00000000000000000000000080000000020f000000000000000000000000000000000000000000000000000000000000000000000000000000000000", None).
Proof. vm_compute. reflexivity. Qed.

(** test/parser-tests.rb:179 *)
Example rb_065 : run_hex ["ifh-jr2"; "vdg-rew-cmd"; "0x7ff"] =
  Some ("0000000000000000000000008000000007ff000000000000000000000000000000000000000000000000000000000000000000000000000000000000", None).
Proof. vm_compute. reflexivity. Qed.

(** test/parser-tests.rb:181 *)
Example rb_066 : run_hex ["ifh-jr2"; "vt-cl-pcp"; "3"; "vt-cl-vid"; "0xfff"; "vt-tag-type"; "1"] =
  Some ("0000000000000000000000008000000000006fff40000000000000000000000000000000000000000000000000000000000000000000000000000000", None).
Proof. vm_compute. reflexivity. Qed.

(** test/parser-tests.rb:183 *)
Example rb_067 : run_hex ["ifh-jr2"; "vt-cl-dei"; "1"; "vt-was-tagged"; "1"; "vt-ingr-port-type"; "3"] =
  Some ("0000000000000000000000008000000000001000b0000000000000000000000000000000000000000000000000000000000000000000000000000000", None).
Proof. vm_compute. reflexivity. Qed.

(** test/parser-tests.rb:185 *)
Example rb_068 : run_hex ["ifh-jr2"; "vs-src-port-type"; "1"; "vs10-src-upsid"; "0x1f"] =
  Some ("00000000000000000000000080000000000000000be00000000000000000000000000000000000000000000000000000000000000000000000000000", None).
Proof. vm_compute. reflexivity. Qed.

(** test/parser-tests.rb:187 *)
Example rb_069 : run_hex ["ifh-jr2"; "vs-src-port-type"; "1"; "vs10-src-upsid"; "0x1f"; "vs10-src-intpn"; "0xf"] =
  Some ("00000000000000000000000080000000000000000bef0000000000000000000000000000000000000000000000000000000000000000000000000000", None).
Proof. vm_compute. reflexivity. Qed.

(** test/parser-tests.rb:189 *)
Example rb_070 : run_hex ["ifh-jr2"; "vs-src-addr-mode"; "1"; "vs10-rsv1"; "1"] =
  Some ("000000000000000000000000800000000000000004100000000000000000000000000000000000000000000000000000000000000000000000000000", None).
Proof. vm_compute. reflexivity. Qed.

(** test/parser-tests.rb:191 *)
Example rb_071 : run_hex ["ifh-jr2"; "vs00-src-upsid"; "0x1f"] =
  Some ("000000000000000000000000800000000000000003e00000000000000000000000000000000000000000000000000000000000000000000000000000", None).
Proof. vm_compute. reflexivity. Qed.

(** test/parser-tests.rb:193 *)
Example rb_072 : run_hex ["ifh-jr2"; "vs00-src-upspn"; "0x1f"] =
  Some ("0000000000000000000000008000000000000000001f0000000000000000000000000000000000000000000000000000000000000000000000000000", None).
Proof. vm_compute. reflexivity. Qed.

(** test/parser-tests.rb:195 *)
Example rb_073 : run_hex ["ifh-jr2"; "vs01-src-glagid"; "0x3ff"] =
  Some ("000000000000000000000000800000000000000003ff0000000000000000000000000000000000000000000000000000000000000000000000000000", None).
Proof. vm_compute. reflexivity. Qed.

(** test/parser-tests.rb:197 *)
Example rb_074 : run_hex ["ifh-jr2"; "f-afi-inj"; "1"; "f-es0-isdx-key-ena"; "1"; "f-vstax-avail"; "1"; "f-rsv3"; "1"; "f-sflow-marking"; "1"; "f-rx-mirror"; "1"; "f-src-port"; "0x3f"] =
  Some ("00000000000000000000000080000000000000000000aa29f80000000000000000000000000000000000000000000000000000000000000000000000", None).
Proof. vm_compute. reflexivity. Qed.

(** test/parser-tests.rb:199 *)
Example rb_075 : run_hex ["ifh-jr2"; "f-rsv1"; "1"; "f-rsv2"; "1"; "f-update-fcs"; "1"; "f-dst-mode"; "7"; "f-aged"; "1"; "f-mirror-probe"; "3"; "f-do-not-rew"; "1"] =
  Some ("0000000000000000000000008000000000000000000055d6040000000000000000000000000000000000000000000000000000000000000000000000", None).
Proof. vm_compute. reflexivity. Qed.

(** test/parser-tests.rb:201 *)
Example rb_076 : run_hex ["ifh-jr2"; "m-pipeline-act"; "7"; "m-cpu-mask"; "0xf"; "q-transp-dscp"; "1"; "q-dscp"; "0x3f"] =
  Some ("00000000000000000000000080000000000000000000000003803cbf0000000000000000000000000000000000000000000000000000000000000000", None).
Proof. vm_compute. reflexivity. Qed.

(** test/parser-tests.rb:203 *)
Example rb_077 : run_hex ["ifh-jr2"; "m-pipeline-pt"; "0x1f"; "t-pop-cnt"; "3"; "q-update-dscp"; "1"] =
  Some ("000000000000000000000000800000000000000000000000007c03400000000000000000000000000000000000000000000000000000000000000000", None).
Proof. vm_compute. reflexivity. Qed.

(** test/parser-tests.rb:207 *)
Example rb_078 : run_hex ["eth"; "dmac"; "1"; "smac"; "2"; "ipv6"; "sip"; "aaaa::1234"; "dip"; "bbbb::8.9.10.11"; "udp"; "data"; "pattern"; "cnt"; "16"] =
  Some ("00000000000100000000000286dd600000000018111faaaa0000000000000000000000001234bbbb0000000000000000000008090a0b0000000000183cd0000102030405060708090a0b0c0d0e0f", None).
Proof. vm_compute. reflexivity. Qed.

(** test/parser-tests.rb:209 *)
Example rb_079 : run_hex ["eth"; "ipv6"; "ver"; "0xf"; "ecn"; "3"; "len"; "0xffff"; "hlim"; "0xff"] =
  Some ("ffffffffffff00000000000186ddf0300000ffff11ff0000000000000000000000000000000000000000000000000000000000000000000000000000", None).
Proof. vm_compute. reflexivity. Qed.

(** test/parser-tests.rb:211 *)
Example rb_080 : run_hex ["eth"; "ipv6"; "dscp"; "0x3f"; "flow"; "0xfffff"; "next"; "0xff"] =
  Some ("ffffffffffff00000000000186dd6fcfffff0000ff1f0000000000000000000000000000000000000000000000000000000000000000000000000000", None).
Proof. vm_compute. reflexivity. Qed.

(** test/parser-tests.rb:215 *)
Example rb_081 : run_hex ["eth"; "ipv4"; "icmp"; "type"; "8"; "hd"; "0x0004000a"; "data"; "ascii"; "Hello World!"] =
  Some ("ffffffffffff000000000001080045000028000000001f019bd600000000000000000800a6020004000a48656c6c6f20576f726c6421000000000000", None).
Proof. vm_compute. reflexivity. Qed.

(** test/parser-tests.rb:217 *)
Example rb_082 : run_hex ["eth"; "ipv4"; "icmp"; "type"; "0"; "hd"; "0x0005000b"; "data"; "ascii"; "Hello World!"] =
  Some ("ffffffffffff000000000001080045000028000000001f019bd600000000000000000000ae000005000b48656c6c6f20576f726c6421000000000000", None).
Proof. vm_compute. reflexivity. Qed.

(** test/parser-tests.rb:219 *)
Example rb_083 : run_hex ["eth"; "ipv6"; "icmp"; "type"; "128"; "hd"; "0x00220033"; "data"; "ascii"; "Hello World!"] =
  Some ("ffffffffffff00000000000186dd6000000000143a1f000000000000000000000000000000000000000000000000000000000000000080002d6d0022003348656c6c6f20576f726c6421", None).
Proof. vm_compute. reflexivity. Qed.

(** test/parser-tests.rb:221 *)
Example rb_084 : run_hex ["eth"; "ipv6"; "icmp"; "type"; "129"; "hd"; "0x00230034"; "data"; "ascii"; "Hello World!"] =
  Some ("ffffffffffff00000000000186dd6000000000143a1f000000000000000000000000000000000000000000000000000000000000000081002c6b0023003448656c6c6f20576f726c6421", None).
Proof. vm_compute. reflexivity. Qed.

(** test/parser-tests.rb:235 *)
Example rb_085 : run_hex ["eth"; "ipv4"; "tcp"; "sport"; "0xaaaa"; "seqn"; "0xffffffff"; "doff"; "0xf"; "urg"; "1"; "psh"; "1"; "syn"; "1"; "win"; "0xffff"; "urgp"; "0xffff"] =
  Some ("ffffffffffff000000000001080045000028000000001f069bd10000000000000000aaaa0000ffffffff00000000f02affff6510ffff000000000000", None).
Proof. vm_compute. reflexivity. Qed.

(** test/parser-tests.rb:237 *)
Example rb_086 : run_hex ["eth"; "ipv4"; "tcp"; "dport"; "0xbbbb"; "ackn"; "0xffffffff"; "resv"; "0x3f"; "ack"; "1"; "rst"; "1"; "fin"; "1"] =
  Some ("ffffffffffff000000000001080045000028000000001f069bd100000000000000000000bbbb00000000ffffffff5fd50000e4540000000000000000", None).
Proof. vm_compute. reflexivity. Qed.

(** test/parser-tests.rb:239 *)
Example rb_087 : run_hex ["eth"; "ipv4"; "tcp"; "sport"; "0xaaaa"; "dport"; "0xbbbb"; "data"; "ascii"; "Hello World!"] =
  Some ("ffffffffffff000000000001080045000034000000001f069bc50000000000000000aaaabbbb000000000000000050000000f783000048656c6c6f20576f726c6421", None).
Proof. vm_compute. reflexivity. Qed.

(** test/parser-tests.rb:241 *)
Example rb_088 : run_hex ["eth"; "ipv6"; "tcp"; "sport"; "0xaaaa"; "dport"; "0xbbbb"; "data"; "ascii"; "Hello World!"] =
  Some ("ffffffffffff00000000000186dd600000000020061f0000000000000000000000000000000000000000000000000000000000000000aaaabbbb000000000000000050000000f783000048656c6c6f20576f726c6421", None).
Proof. vm_compute. reflexivity. Qed.

(** test/parser-tests.rb:245 *)
Example rb_089 : run_hex ["eth"; "dmac"; "1::2"; "smac"; "3::4"; "ipv4"; "ign"; "udp"] =
  Some ("01000000000203000000000408004500001c000000001f119bd20000000000000000000000000008ffde000000000000000000000000000000000000", Some "ffffffffffffffffffffffffffff0000000000000000000000000000000000000000ffffffffffffffffffffffffffffffffffffffffffffffffffff").
Proof. vm_compute. reflexivity. Qed.

(** test/parser-tests.rb:248 *)
Example rb_090 : run_hex ["eth"; "dmac"; "1::2"; "smac"; "3::4"; "ipv4"; "ign"; "sip"; "1.2.3.4"; "udp"] =
  Some ("01000000000203000000000408004500001c000000001f1197cc0102030400000000000000000008fbd8000000000000000000000000000000000000", Some "ffffffffffffffffffffffffffff000000000000000000000000ffffffff00000000ffffffffffffffffffffffffffffffffffffffffffffffffffff").
Proof. vm_compute. reflexivity. Qed.

(** test/parser-tests.rb:251 *)
Example rb_091 : run_hex ["eth"; "dmac"; "1::2"; "smac"; "3::4"; "ipv4"; "sip"; "ign"; "udp"] =
  Some ("01000000000203000000000408004500001c000000001f119bd20000000000000000000000000008ffde000000000000000000000000000000000000", Some "ffffffffffffffffffffffffffffffffffffffffffffffffffff00000000ffffffffffffffffffffffffffffffffffffffffffffffffffffffffffff").
Proof. vm_compute. reflexivity. Qed.

(** test/parser-tests.rb:256 *)
Example rb_092 : run_hex ["eth"; "dmac"; "::1"; "smac"; "::2"; "ctag"; "pcp"; "6"; "profinet-rtc"; "frameid"; "0x9001"; "data"; "80808080004080"; "cycle"; "0xc9e0"] =
  Some ("0000000000010000000000028100c0008892900180808080004080000000000000000000000000000000000000000000000000000000000000000000c9e03500", None).
Proof. vm_compute. reflexivity. Qed.

(** test/parser-tests.rb:259 *)
Example rb_093 : run_hex ["eth"; "dmac"; "::1"; "smac"; "::2"; "profinet-rtc"; "frameid"; "0x9001"; "data"; "80808080004080"; "cycle"; "0xc9e0"] =
  Some ("0000000000010000000000028892900180808080004080000000000000000000000000000000000000000000000000000000000000000000c9e03500", None).
Proof. vm_compute. reflexivity. Qed.

(** test/parser-tests.rb:263 *)
Example rb_094 : run_hex ["coap-opt"; "num"; "11"; "val"; "ascii"; "temperature"] =
  Some ("bb74656d7065726174757265000000000000000000000000000000000000000000000000000000000000000000000000000000000000000000000000", None).
Proof. vm_compute. reflexivity. Qed.

(** test/parser-tests.rb:266 *)
Example rb_095 : run_hex ["coap"; "type"; "0"; "code"; "0.01"; "msgid"; "0x736a"; "token"; "7778"; "coap-opt"; "num"; "11"; "val"; "ascii"; "temperature"] =
  Some ("4201736a7778bb74656d7065726174757265000000000000000000000000000000000000000000000000000000000000000000000000000000000000", None).
Proof. vm_compute. reflexivity. Qed.

(** test/parser-tests.rb:269 *)
Example rb_096 : run_hex ["coap"; "type"; "0"; "code"; "0.01"; "msgid"; "0x736a"; "token"; "7778"; "coap-opt"; "val"; "ascii"; "temperature"; "num"; "11"] =
  Some ("4201736a7778bb74656d7065726174757265000000000000000000000000000000000000000000000000000000000000000000000000000000000000", None).
Proof. vm_compute. reflexivity. Qed.

(** test/parser-tests.rb:272 *)
Example rb_097 : run_hex ["coap"; "type"; "0"; "code"; "0.01"; "msgid"; "0x736a"; "token"; "7778"; "coap-opt"; "num"; "11"; "val"; "ascii"; "temperature"; "coap-opt"; "num"; "1"; "val"; "hex"; "00"] =
  Some ("4201736a7778bb74656d7065726174757265100000000000000000000000000000000000000000000000000000000000000000000000000000000000", None).
Proof. vm_compute. reflexivity. Qed.

(** test/parser-tests.rb:275 *)
Example rb_098 : run_hex ["coap"; "type"; "0"; "code"; "0.01"; "msgid"; "0x736a"; "token"; "7778"; "coap-opt"; "num"; "11"; "val"; "ascii"; "Hello World"] =
  Some ("4201736a7778bb48656c6c6f20576f726c64000000000000000000000000000000000000000000000000000000000000000000000000000000000000", None).
Proof. vm_compute. reflexivity. Qed.

(** test/parser-tests.rb:281 *)
Example rb_099 : run_hex ["coap"; "type"; "0"; "code"; "0.01"; "msgid"; "0x736a"; "token"; "7778"; "coap-opt"; "num"; "11"; "val"; "ascii"; "temperature"; "coap-opt"; "num"; "0"; "val"; "ascii"; "temperature"] =
  Some ("4201736a7778bb74656d70657261747572650b74656d7065726174757265000000000000000000000000000000000000000000000000000000000000", None).
Proof. vm_compute. reflexivity. Qed.

(** test/parser-tests.rb:284 *)
Example rb_100 : run_hex ["coap"; "type"; "0"; "code"; "0.03"; "msgid"; "0x736a"; "token"; "7778"; "coap-opt"; "num"; "11"; "val"; "ascii"; "temperature/current"; "coap-parms"; "par"; "ascii"; "36 C"] =
  Some ("4203736a7778bd0674656d70657261747572652f63757272656e74ff3336204300000000000000000000000000000000000000000000000000000000", None).
Proof. vm_compute. reflexivity. Qed.

(** test/test-ef-parse-bytes.cxx:21 *)
Example pb_001 : run_bytes "5" 4 = Some "00000005".
Proof. vm_compute. reflexivity. Qed.

(** test/test-ef-parse-bytes.cxx:22 *)
Example pb_002 : run_bytes "5" 3 = Some "000005".
Proof. vm_compute. reflexivity. Qed.

(** test/test-ef-parse-bytes.cxx:23 *)
Example pb_003 : run_bytes "5" 2 = Some "0005".
Proof. vm_compute. reflexivity. Qed.

(** test/test-ef-parse-bytes.cxx:24 *)
Example pb_004 : run_bytes "5" 1 = Some "05".
Proof. vm_compute. reflexivity. Qed.

(** test/test-ef-parse-bytes.cxx:25 *)
Example pb_005 : run_bytes "100" 4 = Some "00000064".
Proof. vm_compute. reflexivity. Qed.

(** test/test-ef-parse-bytes.cxx:26 *)
Example pb_006 : run_bytes "77" 4 = Some "0000004d".
Proof. vm_compute. reflexivity. Qed.

(** test/test-ef-parse-bytes.cxx:27 *)
Example pb_007 : run_bytes "1234" 4 = Some "000004d2".
Proof. vm_compute. reflexivity. Qed.

(** test/test-ef-parse-bytes.cxx:28 *)
Example pb_008 : run_bytes "0x0800" 2 = Some "0800".
Proof. vm_compute. reflexivity. Qed.

(** test/test-ef-parse-bytes.cxx:29 *)
Example pb_009 : run_bytes "0b1111" 2 = Some "000f".
Proof. vm_compute. reflexivity. Qed.

(** test/test-ef-parse-bytes.cxx:30 *)
Example pb_010 : run_bytes "::1" 16 = Some "00000000000000000000000000000001".
Proof. vm_compute. reflexivity. Qed.

(** test/test-ef-parse-bytes.cxx:32 *)
Example pb_011 : run_bytes "2000::10.1.2.3" 16 = Some "2000000000000000000000000a010203".
Proof. vm_compute. reflexivity. Qed.

(** test/test-ef-parse-bytes.cxx:34 *)
Example pb_012 : run_bytes "10.1.2.3" 4 = Some "0a010203".
Proof. vm_compute. reflexivity. Qed.

(** test/test-ef-parse-bytes.cxx:35 *)
Example pb_013 : run_bytes "10.1.2.8" 4 = Some "0a010208".
Proof. vm_compute. reflexivity. Qed.

(** test/test-ef-parse-bytes.cxx:36 *)
Example pb_014 : run_bytes "10.0.99.2" 4 = Some "0a006302".
Proof. vm_compute. reflexivity. Qed.

(** test/test-ef-parse-bytes.cxx:37 *)
Example pb_015 : run_bytes "5.6.7.8" 4 = Some "05060708".
Proof. vm_compute. reflexivity. Qed.

(** test/test-ef-parse-bytes.cxx:39 *)
Example pb_016 : run_bytes ":::" 6 = None.
Proof. vm_compute. reflexivity. Qed.

(** test/test-ef-parse-bytes.cxx:40 *)
Example pb_017 : run_bytes "00::00::00" 6 = None.
Proof. vm_compute. reflexivity. Qed.

(** test/test-ef-parse-bytes.cxx:41 *)
Example pb_018 : run_bytes "::00::00" 6 = None.
Proof. vm_compute. reflexivity. Qed.

(** test/test-ef-parse-bytes.cxx:43 *)
Example pb_019 : run_bytes "::" 6 = Some "000000000000".
Proof. vm_compute. reflexivity. Qed.

(** test/test-ef-parse-bytes.cxx:44 *)
Example pb_020 : run_bytes "::1" 6 = Some "000000000001".
Proof. vm_compute. reflexivity. Qed.

(** test/test-ef-parse-bytes.cxx:45 *)
Example pb_021 : run_bytes "::1:2" 6 = Some "000000000102".
Proof. vm_compute. reflexivity. Qed.

(** test/test-ef-parse-bytes.cxx:46 *)
Example pb_022 : run_bytes "::1:2:3" 6 = Some "000000010203".
Proof. vm_compute. reflexivity. Qed.

(** test/test-ef-parse-bytes.cxx:47 *)
Example pb_023 : run_bytes "::1:2:3:4" 6 = Some "000001020304".
Proof. vm_compute. reflexivity. Qed.

(** test/test-ef-parse-bytes.cxx:48 *)
Example pb_024 : run_bytes "::1:2:3:4:5" 6 = Some "000102030405".
Proof. vm_compute. reflexivity. Qed.

(** test/test-ef-parse-bytes.cxx:49 *)
Example pb_025 : run_bytes "::1:2:3:4:5:6" 6 = None.
Proof. vm_compute. reflexivity. Qed.

(** test/test-ef-parse-bytes.cxx:50 *)
Example pb_026 : run_bytes "::1:2:3:4:5:6:7" 6 = None.
Proof. vm_compute. reflexivity. Qed.

(** test/test-ef-parse-bytes.cxx:52 *)
Example pb_027 : run_bytes "10::" 6 = Some "100000000000".
Proof. vm_compute. reflexivity. Qed.

(** test/test-ef-parse-bytes.cxx:53 *)
Example pb_028 : run_bytes "10::1" 6 = Some "100000000001".
Proof. vm_compute. reflexivity. Qed.

(** test/test-ef-parse-bytes.cxx:54 *)
Example pb_029 : run_bytes "10::1:2" 6 = Some "100000000102".
Proof. vm_compute. reflexivity. Qed.

(** test/test-ef-parse-bytes.cxx:55 *)
Example pb_030 : run_bytes "10::1:2:3" 6 = Some "100000010203".
Proof. vm_compute. reflexivity. Qed.

(** test/test-ef-parse-bytes.cxx:56 *)
Example pb_031 : run_bytes "10::1:2:3:4" 6 = Some "100001020304".
Proof. vm_compute. reflexivity. Qed.

(** test/test-ef-parse-bytes.cxx:57 *)
Example pb_032 : run_bytes "10::1:2:3:4:5" 6 = None.
Proof. vm_compute. reflexivity. Qed.

(** test/test-ef-parse-bytes.cxx:58 *)
Example pb_033 : run_bytes "10::1:2:3:4:5:6" 6 = None.
Proof. vm_compute. reflexivity. Qed.

(** test/test-ef-parse-bytes.cxx:60 *)
Example pb_034 : run_bytes "10:20::" 6 = Some "102000000000".
Proof. vm_compute. reflexivity. Qed.

(** test/test-ef-parse-bytes.cxx:61 *)
Example pb_035 : run_bytes "10:20::1" 6 = Some "102000000001".
Proof. vm_compute. reflexivity. Qed.

(** test/test-ef-parse-bytes.cxx:62 *)
Example pb_036 : run_bytes "10:20::1:2" 6 = Some "102000000102".
Proof. vm_compute. reflexivity. Qed.

(** test/test-ef-parse-bytes.cxx:63 *)
Example pb_037 : run_bytes "10:20::1:2:3" 6 = Some "102000010203".
Proof. vm_compute. reflexivity. Qed.

(** test/test-ef-parse-bytes.cxx:64 *)
Example pb_038 : run_bytes "10:20::1:2:3:4" 6 = None.
Proof. vm_compute. reflexivity. Qed.

(** test/test-ef-parse-bytes.cxx:65 *)
Example pb_039 : run_bytes "10:20::1:2:3:4:5" 6 = None.
Proof. vm_compute. reflexivity. Qed.

(** test/test-ef-parse-bytes.cxx:67 *)
Example pb_040 : run_bytes "10:20:30::" 6 = Some "102030000000".
Proof. vm_compute. reflexivity. Qed.

(** test/test-ef-parse-bytes.cxx:68 *)
Example pb_041 : run_bytes "10:20:30::1" 6 = Some "102030000001".
Proof. vm_compute. reflexivity. Qed.

(** test/test-ef-parse-bytes.cxx:69 *)
Example pb_042 : run_bytes "10:20:30::1:2" 6 = Some "102030000102".
Proof. vm_compute. reflexivity. Qed.

(** test/test-ef-parse-bytes.cxx:70 *)
Example pb_043 : run_bytes "10:20:30::1:2:3" 6 = None.
Proof. vm_compute. reflexivity. Qed.

(** test/test-ef-parse-bytes.cxx:71 *)
Example pb_044 : run_bytes "10:20:30::1:2:3:4" 6 = None.
Proof. vm_compute. reflexivity. Qed.

(** test/test-ef-parse-bytes.cxx:73 *)
Example pb_045 : run_bytes "10:20:30:40::" 6 = Some "102030400000".
Proof. vm_compute. reflexivity. Qed.

(** test/test-ef-parse-bytes.cxx:74 *)
Example pb_046 : run_bytes "10:20:30:40::1" 6 = Some "102030400001".
Proof. vm_compute. reflexivity. Qed.

(** test/test-ef-parse-bytes.cxx:75 *)
Example pb_047 : run_bytes "10:20:30:40::1:2" 6 = None.
Proof. vm_compute. reflexivity. Qed.

(** test/test-ef-parse-bytes.cxx:76 *)
Example pb_048 : run_bytes "10:20:30:40::1:2:3" 6 = None.
Proof. vm_compute. reflexivity. Qed.

(** test/test-ef-parse-bytes.cxx:78 *)
Example pb_049 : run_bytes "10:20:30:40:50::" 6 = Some "102030405000".
Proof. vm_compute. reflexivity. Qed.

(** test/test-ef-parse-bytes.cxx:79 *)
Example pb_050 : run_bytes "10:20:30:40:50::1" 6 = None.
Proof. vm_compute. reflexivity. Qed.

(** test/test-ef-parse-bytes.cxx:80 *)
Example pb_051 : run_bytes "10:20:30:40:50::1:2" 6 = None.
Proof. vm_compute. reflexivity. Qed.

(** test/test-ef-parse-bytes.cxx:82 *)
Example pb_052 : run_bytes "a::4" 6 = Some "0a0000000004".
Proof. vm_compute. reflexivity. Qed.

(** test/test-ef-parse-bytes.cxx:83 *)
Example pb_053 : run_bytes "0a::4" 6 = Some "0a0000000004".
Proof. vm_compute. reflexivity. Qed.

(** test/test-ef-parse-bytes.cxx:84 *)
Example pb_054 : run_bytes "a0::4" 6 = Some "a00000000004".
Proof. vm_compute. reflexivity. Qed.

(** test/test-ef-parse-bytes.cxx:86 *)
Example pb_055 : run_bytes "B::5" 6 = Some "0b0000000005".
Proof. vm_compute. reflexivity. Qed.

(** test/test-ef-parse-bytes.cxx:87 *)
Example pb_056 : run_bytes "0B::5" 6 = Some "0b0000000005".
Proof. vm_compute. reflexivity. Qed.

(** test/test-ef-parse-bytes.cxx:88 *)
Example pb_057 : run_bytes "B0::5" 6 = Some "b00000000005".
Proof. vm_compute. reflexivity. Qed.

(** test/test-ef-parse-bytes.cxx:90 *)
Example pb_058 : run_bytes "::" 16 = Some "00000000000000000000000000000000".
Proof. vm_compute. reflexivity. Qed.

(** test/test-ef-parse-bytes.cxx:91 *)
Example pb_059 : run_bytes "0x3311ff" 16 = Some "000000000000000000000000003311ff".
Proof. vm_compute. reflexivity. Qed.

(** test/test-ef-parse-bytes.cxx:92 *)
Example pb_060 : run_bytes "0x11000022" 12 = Some "000000000000000011000022".
Proof. vm_compute. reflexivity. Qed.

(** test/test-ef-parse-bytes.cxx:93 *)
Example pb_061 : run_bytes "0b00000001" 12 = Some "000000000000000000000001".
Proof. vm_compute. reflexivity. Qed.

(** test/test-ef-parse-bytes.cxx:94 *)
Example pb_062 : run_bytes "0b00000101" 12 = Some "000000000000000000000005".
Proof. vm_compute. reflexivity. Qed.

(** test/test-ef-parse-bytes.cxx:95 *)
Example pb_063 : run_bytes "0b1000000000000101" 12 = Some "000000000000000000008005".
Proof. vm_compute. reflexivity. Qed.

(** test/test-ef-parse-bytes.cxx:123 *)
Example wf_001 : run_write 1 "0x1" 1 0 3 = Some "800000".
Proof. vm_compute. reflexivity. Qed.

(** test/test-ef-parse-bytes.cxx:124 *)
Example wf_002 : run_write 1 "0x1" 1 1 3 = Some "400000".
Proof. vm_compute. reflexivity. Qed.

(** test/test-ef-parse-bytes.cxx:125 *)
Example wf_003 : run_write 1 "0x1" 1 2 3 = Some "200000".
Proof. vm_compute. reflexivity. Qed.

(** test/test-ef-parse-bytes.cxx:126 *)
Example wf_004 : run_write 1 "0x1" 1 3 3 = Some "100000".
Proof. vm_compute. reflexivity. Qed.

(** test/test-ef-parse-bytes.cxx:127 *)
Example wf_005 : run_write 1 "0x1" 1 4 3 = Some "080000".
Proof. vm_compute. reflexivity. Qed.

(** test/test-ef-parse-bytes.cxx:128 *)
Example wf_006 : run_write 1 "0x1" 1 5 3 = Some "040000".
Proof. vm_compute. reflexivity. Qed.

(** test/test-ef-parse-bytes.cxx:129 *)
Example wf_007 : run_write 1 "0x1" 1 6 3 = Some "020000".
Proof. vm_compute. reflexivity. Qed.

(** test/test-ef-parse-bytes.cxx:130 *)
Example wf_008 : run_write 1 "0x1" 1 7 3 = Some "010000".
Proof. vm_compute. reflexivity. Qed.

(** test/test-ef-parse-bytes.cxx:131 *)
Example wf_009 : run_write 1 "0x1" 1 8 3 = Some "008000".
Proof. vm_compute. reflexivity. Qed.

(** test/test-ef-parse-bytes.cxx:132 *)
Example wf_010 : run_write 1 "0x1" 1 9 3 = Some "004000".
Proof. vm_compute. reflexivity. Qed.

(** test/test-ef-parse-bytes.cxx:133 *)
Example wf_011 : run_write 1 "0x1" 1 10 3 = Some "002000".
Proof. vm_compute. reflexivity. Qed.

(** test/test-ef-parse-bytes.cxx:134 *)
Example wf_012 : run_write 1 "0x1" 1 11 3 = Some "001000".
Proof. vm_compute. reflexivity. Qed.

(** test/test-ef-parse-bytes.cxx:135 *)
Example wf_013 : run_write 1 "0x1" 1 12 3 = Some "000800".
Proof. vm_compute. reflexivity. Qed.

(** test/test-ef-parse-bytes.cxx:136 *)
Example wf_014 : run_write 1 "0x1" 1 13 3 = Some "000400".
Proof. vm_compute. reflexivity. Qed.

(** test/test-ef-parse-bytes.cxx:137 *)
Example wf_015 : run_write 1 "0x1" 1 14 3 = Some "000200".
Proof. vm_compute. reflexivity. Qed.

(** test/test-ef-parse-bytes.cxx:138 *)
Example wf_016 : run_write 1 "0x1" 1 15 3 = Some "000100".
Proof. vm_compute. reflexivity. Qed.

(** test/test-ef-parse-bytes.cxx:139 *)
Example wf_017 : run_write 1 "0x1" 1 16 3 = Some "000080".
Proof. vm_compute. reflexivity. Qed.

(** test/test-ef-parse-bytes.cxx:140 *)
Example wf_018 : run_write 1 "0x1" 1 17 3 = Some "000040".
Proof. vm_compute. reflexivity. Qed.

(** test/test-ef-parse-bytes.cxx:141 *)
Example wf_019 : run_write 1 "0x1" 1 18 3 = Some "000020".
Proof. vm_compute. reflexivity. Qed.

(** test/test-ef-parse-bytes.cxx:142 *)
Example wf_020 : run_write 1 "0x1" 1 19 3 = Some "000010".
Proof. vm_compute. reflexivity. Qed.

(** test/test-ef-parse-bytes.cxx:143 *)
Example wf_021 : run_write 1 "0x1" 1 20 3 = Some "000008".
Proof. vm_compute. reflexivity. Qed.

(** test/test-ef-parse-bytes.cxx:144 *)
Example wf_022 : run_write 1 "0x1" 1 21 3 = Some "000004".
Proof. vm_compute. reflexivity. Qed.

(** test/test-ef-parse-bytes.cxx:145 *)
Example wf_023 : run_write 1 "0x1" 1 22 3 = Some "000002".
Proof. vm_compute. reflexivity. Qed.

(** test/test-ef-parse-bytes.cxx:146 *)
Example wf_024 : run_write 1 "0x1" 1 23 3 = Some "000001".
Proof. vm_compute. reflexivity. Qed.

(** test/test-ef-parse-bytes.cxx:148 *)
Example wf_025 : run_write 1 "0x3" 2 0 3 = Some "c00000".
Proof. vm_compute. reflexivity. Qed.

(** test/test-ef-parse-bytes.cxx:149 *)
Example wf_026 : run_write 1 "0x3" 2 1 3 = Some "600000".
Proof. vm_compute. reflexivity. Qed.

(** test/test-ef-parse-bytes.cxx:150 *)
Example wf_027 : run_write 1 "0x3" 2 2 3 = Some "300000".
Proof. vm_compute. reflexivity. Qed.

(** test/test-ef-parse-bytes.cxx:151 *)
Example wf_028 : run_write 1 "0x3" 2 3 3 = Some "180000".
Proof. vm_compute. reflexivity. Qed.

(** test/test-ef-parse-bytes.cxx:152 *)
Example wf_029 : run_write 1 "0x3" 2 4 3 = Some "0c0000".
Proof. vm_compute. reflexivity. Qed.

(** test/test-ef-parse-bytes.cxx:153 *)
Example wf_030 : run_write 1 "0x3" 2 5 3 = Some "060000".
Proof. vm_compute. reflexivity. Qed.

(** test/test-ef-parse-bytes.cxx:154 *)
Example wf_031 : run_write 1 "0x3" 2 6 3 = Some "030000".
Proof. vm_compute. reflexivity. Qed.

(** test/test-ef-parse-bytes.cxx:156 *)
Example wf_032 : run_write 1 "0x3" 2 7 3 = Some "018000".
Proof. vm_compute. reflexivity. Qed.

(** test/test-ef-parse-bytes.cxx:157 *)
Example wf_033 : run_write 1 "0x2" 2 7 3 = Some "010000".
Proof. vm_compute. reflexivity. Qed.

(** test/test-ef-parse-bytes.cxx:158 *)
Example wf_034 : run_write 1 "0x1" 2 7 3 = Some "008000".
Proof. vm_compute. reflexivity. Qed.

(** test/test-ef-parse-bytes.cxx:160 *)
Example wf_035 : run_write 1 "0x3" 2 8 3 = Some "00c000".
Proof. vm_compute. reflexivity. Qed.

(** test/test-ef-parse-bytes.cxx:161 *)
Example wf_036 : run_write 1 "0x3" 2 9 3 = Some "006000".
Proof. vm_compute. reflexivity. Qed.

(** test/test-ef-parse-bytes.cxx:162 *)
Example wf_037 : run_write 1 "0x3" 2 10 3 = Some "003000".
Proof. vm_compute. reflexivity. Qed.

(** test/test-ef-parse-bytes.cxx:163 *)
Example wf_038 : run_write 1 "0x3" 2 11 3 = Some "001800".
Proof. vm_compute. reflexivity. Qed.

(** test/test-ef-parse-bytes.cxx:164 *)
Example wf_039 : run_write 1 "0x3" 2 12 3 = Some "000c00".
Proof. vm_compute. reflexivity. Qed.

(** test/test-ef-parse-bytes.cxx:165 *)
Example wf_040 : run_write 1 "0x3" 2 13 3 = Some "000600".
Proof. vm_compute. reflexivity. Qed.

(** test/test-ef-parse-bytes.cxx:166 *)
Example wf_041 : run_write 1 "0x3" 2 14 3 = Some "000300".
Proof. vm_compute. reflexivity. Qed.

(** test/test-ef-parse-bytes.cxx:167 *)
Example wf_042 : run_write 1 "0x3" 2 15 3 = Some "000180".
Proof. vm_compute. reflexivity. Qed.

(** test/test-ef-parse-bytes.cxx:168 *)
Example wf_043 : run_write 1 "0x3" 2 16 3 = Some "0000c0".
Proof. vm_compute. reflexivity. Qed.

(** test/test-ef-parse-bytes.cxx:169 *)
Example wf_044 : run_write 1 "0x3" 2 17 3 = Some "000060".
Proof. vm_compute. reflexivity. Qed.

(** test/test-ef-parse-bytes.cxx:170 *)
Example wf_045 : run_write 1 "0x3" 2 18 3 = Some "000030".
Proof. vm_compute. reflexivity. Qed.

(** test/test-ef-parse-bytes.cxx:171 *)
Example wf_046 : run_write 1 "0x3" 2 19 3 = Some "000018".
Proof. vm_compute. reflexivity. Qed.

(** test/test-ef-parse-bytes.cxx:172 *)
Example wf_047 : run_write 1 "0x3" 2 20 3 = Some "00000c".
Proof. vm_compute. reflexivity. Qed.

(** test/test-ef-parse-bytes.cxx:173 *)
Example wf_048 : run_write 1 "0x3" 2 21 3 = Some "000006".
Proof. vm_compute. reflexivity. Qed.

(** test/test-ef-parse-bytes.cxx:174 *)
Example wf_049 : run_write 1 "0x3" 2 22 3 = Some "000003".
Proof. vm_compute. reflexivity. Qed.

(** test/test-ef-parse-bytes.cxx:176 *)
Example wf_050 : run_write 1 "0x7" 3 0 3 = Some "e00000".
Proof. vm_compute. reflexivity. Qed.

(** test/test-ef-parse-bytes.cxx:177 *)
Example wf_051 : run_write 1 "0x7" 3 1 3 = Some "700000".
Proof. vm_compute. reflexivity. Qed.

(** test/test-ef-parse-bytes.cxx:178 *)
Example wf_052 : run_write 1 "0x7" 3 2 3 = Some "380000".
Proof. vm_compute. reflexivity. Qed.

(** test/test-ef-parse-bytes.cxx:179 *)
Example wf_053 : run_write 1 "0x7" 3 3 3 = Some "1c0000".
Proof. vm_compute. reflexivity. Qed.

(** test/test-ef-parse-bytes.cxx:180 *)
Example wf_054 : run_write 1 "0x7" 3 4 3 = Some "0e0000".
Proof. vm_compute. reflexivity. Qed.

(** test/test-ef-parse-bytes.cxx:181 *)
Example wf_055 : run_write 1 "0x7" 3 5 3 = Some "070000".
Proof. vm_compute. reflexivity. Qed.

(** test/test-ef-parse-bytes.cxx:182 *)
Example wf_056 : run_write 1 "0x7" 3 6 3 = Some "038000".
Proof. vm_compute. reflexivity. Qed.

(** test/test-ef-parse-bytes.cxx:183 *)
Example wf_057 : run_write 1 "0x7" 3 7 3 = Some "01c000".
Proof. vm_compute. reflexivity. Qed.

(** test/test-ef-parse-bytes.cxx:184 *)
Example wf_058 : run_write 1 "0x7" 3 8 3 = Some "00e000".
Proof. vm_compute. reflexivity. Qed.

(** test/test-ef-parse-bytes.cxx:185 *)
Example wf_059 : run_write 1 "0x7" 3 9 3 = Some "007000".
Proof. vm_compute. reflexivity. Qed.

(** test/test-ef-parse-bytes.cxx:186 *)
Example wf_060 : run_write 1 "0x7" 3 10 3 = Some "003800".
Proof. vm_compute. reflexivity. Qed.

(** test/test-ef-parse-bytes.cxx:187 *)
Example wf_061 : run_write 1 "0x7" 3 11 3 = Some "001c00".
Proof. vm_compute. reflexivity. Qed.

(** test/test-ef-parse-bytes.cxx:188 *)
Example wf_062 : run_write 1 "0x7" 3 12 3 = Some "000e00".
Proof. vm_compute. reflexivity. Qed.

(** test/test-ef-parse-bytes.cxx:189 *)
Example wf_063 : run_write 1 "0x7" 3 13 3 = Some "000700".
Proof. vm_compute. reflexivity. Qed.

(** test/test-ef-parse-bytes.cxx:190 *)
Example wf_064 : run_write 1 "0x7" 3 14 3 = Some "000380".
Proof. vm_compute. reflexivity. Qed.

(** test/test-ef-parse-bytes.cxx:191 *)
Example wf_065 : run_write 1 "0x7" 3 15 3 = Some "0001c0".
Proof. vm_compute. reflexivity. Qed.

(** test/test-ef-parse-bytes.cxx:192 *)
Example wf_066 : run_write 1 "0x7" 3 16 3 = Some "0000e0".
Proof. vm_compute. reflexivity. Qed.

(** test/test-ef-parse-bytes.cxx:193 *)
Example wf_067 : run_write 1 "0x7" 3 17 3 = Some "000070".
Proof. vm_compute. reflexivity. Qed.

(** test/test-ef-parse-bytes.cxx:194 *)
Example wf_068 : run_write 1 "0x7" 3 18 3 = Some "000038".
Proof. vm_compute. reflexivity. Qed.

(** test/test-ef-parse-bytes.cxx:195 *)
Example wf_069 : run_write 1 "0x7" 3 19 3 = Some "00001c".
Proof. vm_compute. reflexivity. Qed.

(** test/test-ef-parse-bytes.cxx:196 *)
Example wf_070 : run_write 1 "0x7" 3 20 3 = Some "00000e".
Proof. vm_compute. reflexivity. Qed.

(** test/test-ef-parse-bytes.cxx:197 *)
Example wf_071 : run_write 1 "0x7" 3 21 3 = Some "000007".
Proof. vm_compute. reflexivity. Qed.

(** test/test-ef-parse-bytes.cxx:216 *)
Example wf_072 : run_write 1 "0xff" 8 0 3 = Some "ff0000".
Proof. vm_compute. reflexivity. Qed.

(** test/test-ef-parse-bytes.cxx:217 *)
Example wf_073 : run_write 1 "0xff" 8 1 3 = Some "7f8000".
Proof. vm_compute. reflexivity. Qed.

(** test/test-ef-parse-bytes.cxx:218 *)
Example wf_074 : run_write 1 "0xff" 8 2 3 = Some "3fc000".
Proof. vm_compute. reflexivity. Qed.

(** test/test-ef-parse-bytes.cxx:219 *)
Example wf_075 : run_write 1 "0xff" 8 3 3 = Some "1fe000".
Proof. vm_compute. reflexivity. Qed.

(** test/test-ef-parse-bytes.cxx:220 *)
Example wf_076 : run_write 1 "0xff" 8 4 3 = Some "0ff000".
Proof. vm_compute. reflexivity. Qed.

(** test/test-ef-parse-bytes.cxx:221 *)
Example wf_077 : run_write 1 "0xff" 8 5 3 = Some "07f800".
Proof. vm_compute. reflexivity. Qed.

(** test/test-ef-parse-bytes.cxx:222 *)
Example wf_078 : run_write 1 "0xff" 8 6 3 = Some "03fc00".
Proof. vm_compute. reflexivity. Qed.

(** test/test-ef-parse-bytes.cxx:223 *)
Example wf_079 : run_write 1 "0xff" 8 7 3 = Some "01fe00".
Proof. vm_compute. reflexivity. Qed.

(** test/test-ef-parse-bytes.cxx:224 *)
Example wf_080 : run_write 1 "0xff" 8 8 3 = Some "00ff00".
Proof. vm_compute. reflexivity. Qed.

(** test/test-ef-parse-bytes.cxx:225 *)
Example wf_081 : run_write 1 "0xff" 8 9 3 = Some "007f80".
Proof. vm_compute. reflexivity. Qed.

(** test/test-ef-parse-bytes.cxx:226 *)
Example wf_082 : run_write 1 "0xff" 8 10 3 = Some "003fc0".
Proof. vm_compute. reflexivity. Qed.

(** test/test-ef-parse-bytes.cxx:227 *)
Example wf_083 : run_write 1 "0xff" 8 11 3 = Some "001fe0".
Proof. vm_compute. reflexivity. Qed.

(** test/test-ef-parse-bytes.cxx:228 *)
Example wf_084 : run_write 1 "0xff" 8 12 3 = Some "000ff0".
Proof. vm_compute. reflexivity. Qed.

(** test/test-ef-parse-bytes.cxx:229 *)
Example wf_085 : run_write 1 "0xff" 8 13 3 = Some "0007f8".
Proof. vm_compute. reflexivity. Qed.

(** test/test-ef-parse-bytes.cxx:230 *)
Example wf_086 : run_write 1 "0xff" 8 14 3 = Some "0003fc".
Proof. vm_compute. reflexivity. Qed.

(** test/test-ef-parse-bytes.cxx:231 *)
Example wf_087 : run_write 1 "0xff" 8 15 3 = Some "0001fe".
Proof. vm_compute. reflexivity. Qed.

(** test/test-ef-parse-bytes.cxx:232 *)
Example wf_088 : run_write 1 "0xff" 8 16 3 = Some "0000ff".
Proof. vm_compute. reflexivity. Qed.

(** test/test-ef-parse-bytes.cxx:234 *)
Example wf_089 : run_write 2 "0xfff" 12 0 10 = Some "fff00000000000000000".
Proof. vm_compute. reflexivity. Qed.

(** test/test-ef-parse-bytes.cxx:235 *)
Example wf_090 : run_write 2 "0xfff" 12 1 10 = Some "7ff80000000000000000".
Proof. vm_compute. reflexivity. Qed.

(** test/test-ef-parse-bytes.cxx:236 *)
Example wf_091 : run_write 2 "0xfff" 12 2 10 = Some "3ffc0000000000000000".
Proof. vm_compute. reflexivity. Qed.

(** test/test-ef-parse-bytes.cxx:237 *)
Example wf_092 : run_write 2 "0xfff" 12 3 10 = Some "1ffe0000000000000000".
Proof. vm_compute. reflexivity. Qed.

(** test/test-ef-parse-bytes.cxx:238 *)
Example wf_093 : run_write 2 "0xfff" 12 4 10 = Some "0fff0000000000000000".
Proof. vm_compute. reflexivity. Qed.

(** test/test-ef-parse-bytes.cxx:239 *)
Example wf_094 : run_write 2 "0xfff" 12 5 10 = Some "07ff8000000000000000".
Proof. vm_compute. reflexivity. Qed.

(** test/test-ef-parse-bytes.cxx:240 *)
Example wf_095 : run_write 2 "0xfff" 12 6 10 = Some "03ffc000000000000000".
Proof. vm_compute. reflexivity. Qed.

(** test/test-ef-parse-bytes.cxx:241 *)
Example wf_096 : run_write 2 "0xfff" 12 7 10 = Some "01ffe000000000000000".
Proof. vm_compute. reflexivity. Qed.

(** test/test-ef-parse-bytes.cxx:242 *)
Example wf_097 : run_write 2 "0xfff" 12 8 10 = Some "00fff000000000000000".
Proof. vm_compute. reflexivity. Qed.

(** test/test-ef-parse-bytes.cxx:243 *)
Example wf_098 : run_write 2 "0xfff" 12 9 10 = Some "007ff800000000000000".
Proof. vm_compute. reflexivity. Qed.

(** test/test-ef-parse-bytes.cxx:244 *)
Example wf_099 : run_write 2 "0xfff" 12 10 10 = Some "003ffc00000000000000".
Proof. vm_compute. reflexivity. Qed.

(** test/test-ef-parse-bytes.cxx:245 *)
Example wf_100 : run_write 2 "0xfff" 12 11 10 = Some "001ffe00000000000000".
Proof. vm_compute. reflexivity. Qed.

(** test/test-ef-parse-bytes.cxx:246 *)
Example wf_101 : run_write 2 "0xfff" 12 12 10 = Some "000fff00000000000000".
Proof. vm_compute. reflexivity. Qed.

(** test/test-ef-parse-bytes.cxx:247 *)
Example wf_102 : run_write 2 "0xfff" 12 13 10 = Some "0007ff80000000000000".
Proof. vm_compute. reflexivity. Qed.

(** test/test-ef-parse-bytes.cxx:248 *)
Example wf_103 : run_write 2 "0xfff" 12 14 10 = Some "0003ffc0000000000000".
Proof. vm_compute. reflexivity. Qed.

(** test/test-ef-parse-bytes.cxx:249 *)
Example wf_104 : run_write 2 "0xfff" 12 15 10 = Some "0001ffe0000000000000".
Proof. vm_compute. reflexivity. Qed.

(** test/test-ef-parse-bytes.cxx:250 *)
Example wf_105 : run_write 2 "0xfff" 12 16 10 = Some "0000fff0000000000000".
Proof. vm_compute. reflexivity. Qed.

(** test/test-ef-parse-bytes.cxx:251 *)
Example wf_106 : run_write 2 "0xfff" 12 17 10 = Some "00007ff8000000000000".
Proof. vm_compute. reflexivity. Qed.

(** test/test-ef-parse-bytes.cxx:252 *)
Example wf_107 : run_write 2 "0xfff" 12 18 10 = Some "00003ffc000000000000".
Proof. vm_compute. reflexivity. Qed.

(** test/test-ef-parse-bytes.cxx:253 *)
Example wf_108 : run_write 2 "0xfff" 12 19 10 = Some "00001ffe000000000000".
Proof. vm_compute. reflexivity. Qed.

(** test/test-ef-parse-bytes.cxx:254 *)
Example wf_109 : run_write 2 "0xfff" 12 20 10 = Some "00000fff000000000000".
Proof. vm_compute. reflexivity. Qed.

(** test/test-ef-parse-bytes.cxx:255 *)
Example wf_110 : run_write 2 "0xfff" 12 21 10 = Some "000007ff800000000000".
Proof. vm_compute. reflexivity. Qed.

(** test/test-ef-parse-bytes.cxx:256 *)
Example wf_111 : run_write 2 "0xfff" 12 22 10 = Some "000003ffc00000000000".
Proof. vm_compute. reflexivity. Qed.

(** test/test-ef-parse-bytes.cxx:257 *)
Example wf_112 : run_write 2 "0xfff" 12 23 10 = Some "000001ffe00000000000".
Proof. vm_compute. reflexivity. Qed.

(** test/test-ef-parse-bytes.cxx:259 *)
Example wf_113 : run_write 6 "0xffffffffffff" 48 0 10 = Some "ffffffffffff00000000".
Proof. vm_compute. reflexivity. Qed.

(** test/test-ef-parse-bytes.cxx:260 *)
Example wf_114 : run_write 6 "0xffffffffffff" 48 1 10 = Some "7fffffffffff80000000".
Proof. vm_compute. reflexivity. Qed.

(** test/test-ef-parse-bytes.cxx:261 *)
Example wf_115 : run_write 6 "0xffffffffffff" 48 2 10 = Some "3fffffffffffc0000000".
Proof. vm_compute. reflexivity. Qed.

(** test/test-ef-parse-bytes.cxx:262 *)
Example wf_116 : run_write 6 "0xffffffffffff" 48 3 10 = Some "1fffffffffffe0000000".
Proof. vm_compute. reflexivity. Qed.

(** test/test-ef-parse-bytes.cxx:263 *)
Example wf_117 : run_write 6 "0xffffffffffff" 48 4 10 = Some "0ffffffffffff0000000".
Proof. vm_compute. reflexivity. Qed.

(** test/test-ef-parse-bytes.cxx:264 *)
Example wf_118 : run_write 6 "0xffffffffffff" 48 5 10 = Some "07fffffffffff8000000".
Proof. vm_compute. reflexivity. Qed.

(** test/test-ef-parse-bytes.cxx:265 *)
Example wf_119 : run_write 6 "0xffffffffffff" 48 6 10 = Some "03fffffffffffc000000".
Proof. vm_compute. reflexivity. Qed.

(** test/test-ef-parse-bytes.cxx:266 *)
Example wf_120 : run_write 6 "0xffffffffffff" 48 7 10 = Some "01fffffffffffe000000".
Proof. vm_compute. reflexivity. Qed.

(** test/test-ef-parse-bytes.cxx:267 *)
Example wf_121 : run_write 6 "0xffffffffffff" 48 8 10 = Some "00ffffffffffff000000".
Proof. vm_compute. reflexivity. Qed.

(** test/test-ef-parse-bytes.cxx:268 *)
Example wf_122 : run_write 6 "0xffffffffffff" 48 9 10 = Some "007fffffffffff800000".
Proof. vm_compute. reflexivity. Qed.

(** test/test-ef-parse-bytes.cxx:269 *)
Example wf_123 : run_write 6 "0xffffffffffff" 48 10 10 = Some "003fffffffffffc00000".
Proof. vm_compute. reflexivity. Qed.

(** test/test-ef-parse-bytes.cxx:270 *)
Example wf_124 : run_write 6 "0xffffffffffff" 48 11 10 = Some "001fffffffffffe00000".
Proof. vm_compute. reflexivity. Qed.

(** test/test-ef-parse-bytes.cxx:271 *)
Example wf_125 : run_write 6 "0xffffffffffff" 48 12 10 = Some "000ffffffffffff00000".
Proof. vm_compute. reflexivity. Qed.

(** test/test-ef-parse-bytes.cxx:272 *)
Example wf_126 : run_write 6 "0xffffffffffff" 48 13 10 = Some "0007fffffffffff80000".
Proof. vm_compute. reflexivity. Qed.

(** test/test-ef-parse-bytes.cxx:273 *)
Example wf_127 : run_write 6 "0xffffffffffff" 48 14 10 = Some "0003fffffffffffc0000".
Proof. vm_compute. reflexivity. Qed.

(** test/test-ef-parse-bytes.cxx:274 *)
Example wf_128 : run_write 6 "0xffffffffffff" 48 15 10 = Some "0001fffffffffffe0000".
Proof. vm_compute. reflexivity. Qed.

(** test/test-ef-parse-bytes.cxx:275 *)
Example wf_129 : run_write 6 "0xffffffffffff" 48 16 10 = Some "0000ffffffffffff0000".
Proof. vm_compute. reflexivity. Qed.

(** test/test-ef-parse-bytes.cxx:276 *)
Example wf_130 : run_write 6 "0xffffffffffff" 48 17 10 = Some "00007fffffffffff8000".
Proof. vm_compute. reflexivity. Qed.

(** test/test-ef-parse-bytes.cxx:277 *)
Example wf_131 : run_write 6 "0xffffffffffff" 48 18 10 = Some "00003fffffffffffc000".
Proof. vm_compute. reflexivity. Qed.

(** test/test-ef-parse-bytes.cxx:278 *)
Example wf_132 : run_write 6 "0xffffffffffff" 48 19 10 = Some "00001fffffffffffe000".
Proof. vm_compute. reflexivity. Qed.

(** test/test-ef-parse-bytes.cxx:279 *)
Example wf_133 : run_write 6 "0xffffffffffff" 48 20 10 = Some "00000ffffffffffff000".
Proof. vm_compute. reflexivity. Qed.

(** test/test-ef-parse-bytes.cxx:280 *)
Example wf_134 : run_write 6 "0xffffffffffff" 48 21 10 = Some "000007fffffffffff800".
Proof. vm_compute. reflexivity. Qed.

(** test/test-ef-parse-bytes.cxx:281 *)
Example wf_135 : run_write 6 "0xffffffffffff" 48 22 10 = Some "000003fffffffffffc00".
Proof. vm_compute. reflexivity. Qed.

(** test/test-ef-parse-bytes.cxx:282 *)
Example wf_136 : run_write 6 "0xffffffffffff" 48 23 10 = Some "000001fffffffffffe00".
Proof. vm_compute. reflexivity. Qed.

(** test/test-ef-parse-bytes.cxx:283 *)
Example wf_137 : run_write 6 "0xffffffffffff" 48 24 10 = Some "000000ffffffffffff00".
Proof. vm_compute. reflexivity. Qed.

(** test/test-ef-parse-bytes.cxx:284 *)
Example wf_138 : run_write 6 "0xffffffffffff" 48 25 10 = Some "0000007fffffffffff80".
Proof. vm_compute. reflexivity. Qed.

(** test/test-ef-parse-bytes.cxx:285 *)
Example wf_139 : run_write 6 "0xffffffffffff" 48 26 10 = Some "0000003fffffffffffc0".
Proof. vm_compute. reflexivity. Qed.

(** test/test-ef-parse-bytes.cxx:286 *)
Example wf_140 : run_write 6 "0xffffffffffff" 48 27 10 = Some "0000001fffffffffffe0".
Proof. vm_compute. reflexivity. Qed.

(** test/test-ef-parse-bytes.cxx:287 *)
Example wf_141 : run_write 6 "0xffffffffffff" 48 28 10 = Some "0000000ffffffffffff0".
Proof. vm_compute. reflexivity. Qed.

(** test/test-ef-parse-bytes.cxx:288 *)
Example wf_142 : run_write 6 "0xffffffffffff" 48 29 10 = Some "00000007fffffffffff8".
Proof. vm_compute. reflexivity. Qed.

(** test/test-ef-parse-bytes.cxx:289 *)
Example wf_143 : run_write 6 "0xffffffffffff" 48 30 10 = Some "00000003fffffffffffc".
Proof. vm_compute. reflexivity. Qed.

(** test/test-ef-parse-bytes.cxx:290 *)
Example wf_144 : run_write 6 "0xffffffffffff" 48 31 10 = Some "00000001fffffffffffe".
Proof. vm_compute. reflexivity. Qed.

(** test/test-ef-parse-bytes.cxx:291 *)
Example wf_145 : run_write 6 "0xffffffffffff" 48 32 10 = Some "00000000ffffffffffff".
Proof. vm_compute. reflexivity. Qed.

(** test/test-ef-parse-bytes.cxx:341 *)
Example vb_001 : run_var ["hex"; "fedeabe0badebabe0011223344"] = Some "fedeabe0badebabe0011223344".
Proof. vm_compute. reflexivity. Qed.

(** test/test-ef-parse-bytes.cxx:342 *)
Example vb_002 : run_var ["hex"; "fede.abe0:bade-babe-0011223344"] = Some "fedeabe0badebabe0011223344".
Proof. vm_compute. reflexivity. Qed.

(** test/test-ef-parse-bytes.cxx:343 *)
Example vb_003 : run_var ["ascii"; "Hello world"] = Some "48656c6c6f20776f726c64".
Proof. vm_compute. reflexivity. Qed.

(** test/test-ef-parse-bytes.cxx:344 *)
Example vb_004 : run_var ["ascii0"; "Hello world"] = Some "48656c6c6f20776f726c6400".
Proof. vm_compute. reflexivity. Qed.

(** test/test-ef-parse-bytes.cxx:346 *)
Example vb_005 : run_var ["repeat"; "1"; "0xab"] = Some "ab".
Proof. vm_compute. reflexivity. Qed.

(** test/test-ef-parse-bytes.cxx:347 *)
Example vb_006 : run_var ["repeat"; "2"; "0xab"] = Some "abab".
Proof. vm_compute. reflexivity. Qed.

(** test/test-ef-parse-bytes.cxx:348 *)
Example vb_007 : run_var ["repeat"; "3"; "0xab"] = Some "ababab".
Proof. vm_compute. reflexivity. Qed.

(** test/test-ef-parse-bytes.cxx:349 *)
Example vb_008 : run_var ["repeat"; "4"; "0xab"] = Some "abababab".
Proof. vm_compute. reflexivity. Qed.

(** test/test-ef-parse-bytes.cxx:350 *)
Example vb_009 : run_var ["repeat"; "4"; "100"] = Some "64646464".
Proof. vm_compute. reflexivity. Qed.

(** test/test-ef-parse-bytes.cxx:361 *)
Example vb_010 : run_var ["pattern"; "cnt"; "20"] = Some "000102030405060708090a0b0c0d0e0f10111213".
Proof. vm_compute. reflexivity. Qed.

(** test/test-ef-parse-bytes.cxx:362 *)
Example vb_011 : run_var ["pattern"; "zero"; "20"] = Some "0000000000000000000000000000000000000000".
Proof. vm_compute. reflexivity. Qed.

(** test/test-ef-parse-bytes.cxx:363 *)
Example vb_012 : run_var ["pattern"; "ones"; "20"] = Some "ffffffffffffffffffffffffffffffffffffffff".
Proof. vm_compute. reflexivity. Qed.

(** test/test-ef-parse-bytes.cxx:365 *)
Example vb_013 : run_var ["repeat"; "10"; "0xaa"; "hex"; "acef"; "pattern"; "cnt"; "10"] = Some "aaaaaaaaaaaaaaaaaaaaacef00010203040506070809".
Proof. vm_compute. reflexivity. Qed.

(** test/ifh-ignore.cxx:9-25 *)
Definition the_frame (ws : list string) : frame :=
  match argc_frame ws with Ret (Some (_, f)) => f | _ => empty_frame end.
Definition the_buf (f : frame) : buf :=
  match frame_to_buf f with Ret (_, b) => b | _ => [] end.
Definition the_mask (f : frame) : buf :=
  match frame_to_buf f with
  | Ret (f1, _) => match frame_mask_to_buf f1 with Ret b => b | _ => [] end
  | _ => [] end.

Example ifh_ignore :
  let f v := the_frame ["ifh-oc1"; "rew-val"; v; "eth"; "dmac"; "1::2"; "smac"; "3::4"] in
  let b1 := the_buf (f "0xabcdef") in
  let b2 := the_buf (f "0x123456") in
  let b3 := the_buf (f "ign") in
  let m3 := the_mask (f "ign") in
  (bequal_mask b1 b1 None 0, bequal_mask b2 b2 None 0, bequal_mask b3 b3 None 0,
   bequal_mask b1 b2 None 0, bequal_mask b1 b3 None 0, bequal_mask b2 b3 None 0,
   bequal_mask b1 b2 (Some m3) 0)
  = (Ret true, Ret true, Ret true, Ret false, Ret false, Ret false, Ret true).
Proof. vm_compute. reflexivity. Qed.
