#!/usr/bin/env python3
"""Generate rocq/theories/Conformance.v: the vectors of /repo/test evaluated on the model."""
import re, shlex, os
T = '/repo/test/'
q = lambda s: '"' + s.replace('"', '""') + '"'
rb = open(T + 'parser-tests.rb').read()
body = rb[rb.index('%x{rm -f'):]
base = rb.count('\n', 0, rb.index('%x{rm -f')) + 1
out = ['''(** GENERATED by tools/gen_conformance.py -- do not edit.

    The project's own test vectors (/repo/test), evaluated on the model.  These
    are tests of the model against the expectations the project publishes, not
    proofs of properties. *)

From Verif Require Import Exec.

(** "ef hex <words>": the printed frame, and the mask if there is one. *)
Definition run_hex (ws : list string) : option (string * option string) :=
  match argc_cmds ("hex" :: ws) (MkEnv (fun _ => true) []) with
  | Ret (0, [EvHex b m]) =>
      Some (hex_str b, match m with Some m => Some (hex_str m) | None => None end)
  | _ => None
  end.

Definition run_bytes (s : string) (n : Z) : option string :=
  match parse_bytes s n with
  | Ret (Some b) => Some (hex_str b)
  | _ => None
  end.

Definition run_write (vs : Z) (v : string) (w o size : Z) : option string :=
  match parse_bytes v vs with
  | Ret (Some val) =>
      match hdr_write_field (balloc size) 0 (fld "" w o FP_default) val with
      | Ret b => Some (hex_str b)
      | _ => None
      end
  | _ => None
  end.

Definition run_var (ws : list string) : option string :=
  match parse_var_bytes ws with
  | Ret (_, Some b) => Some (hex_str b)
  | _ => None
  end.
''']
n = 0
pat = re.compile(r'^\s*(ok|ok_mask)\s*\(?\s*"((?:[^"\\]|\\.)*)"\s*,\s*"([0-9a-f]*)"(?:\s*,\s*"([0-9a-f]*)")?\s*\)?;?\s*$', re.M)
for m in pat.finditer(body):
    n += 1
    line = base + body.count('\n', 0, m.start(2))
    ws = shlex.split(m.group(2).replace('\\"', '"'))
    r = 'Some (%s, %s)' % (q(m.group(3)), 'Some ' + q(m.group(4)) if m.group(1) == 'ok_mask' else 'None')
    out.append('(** test/parser-tests.rb:%d *)\nExample rb_%03d : run_hex [%s] =\n  %s.\nProof. vm_compute. reflexivity. Qed.\n' % (
        line, n, '; '.join(map(q, ws)), r))
cx = open(T + 'test-ef-parse-bytes.cxx').read()
cx = re.sub(r'/\*.*?\*/', lambda m: '\n' * m.group(0).count('\n'), cx, flags=re.S)
cx = re.sub(r'//[^\n]*', '', cx)
k = 0
for m in re.finditer(r'CHECK\(hexstr\(parse_bytes\("([^"]*)", (\d+)\)\) ==\s*"([0-9a-f]*)"\);|CHECK\(!parse_bytes\("([^"]*)", (\d+)\)\);', cx):
    k += 1
    line = cx.count('\n', 0, m.start()) + 1
    s, b = (m.group(1), m.group(2)) if m.group(3) is not None else (m.group(4), m.group(5))
    r = 'Some ' + q(m.group(3)) if m.group(3) is not None else 'None'
    out.append('(** test/test-ef-parse-bytes.cxx:%d *)\nExample pb_%03d : run_bytes %s %s = %s.\nProof. vm_compute. reflexivity. Qed.\n' % (line, k, q(s), b, r))
w = 0
for m in re.finditer(r'^\s*X\((\d+), "([^"]*)",\s*(\d+),\s*(\d+),\s*(\d+), "([0-9a-f]*)"\);', cx, re.M):
    w += 1
    line = cx.count('\n', 0, m.start(1)) + 1
    out.append('(** test/test-ef-parse-bytes.cxx:%d *)\nExample wf_%03d : run_write %s %s %s %s %s = Some %s.\nProof. vm_compute. reflexivity. Qed.\n' % (
        line, w, m.group(1), q(m.group(2)), m.group(3), m.group(4), m.group(5), q(m.group(6))))
v = 0
for m in re.finditer(r'^\s*X\("([0-9a-f]*)",((?:\s*"[^"]*",?)+)\);', cx, re.M):
    v += 1
    line = cx.count('\n', 0, m.start(1)) + 1
    ws = re.findall(r'"([^"]*)"', m.group(2))
    out.append('(** test/test-ef-parse-bytes.cxx:%d *)\nExample vb_%03d : run_var [%s] = Some %s.\nProof. vm_compute. reflexivity. Qed.\n' % (
        line, v, '; '.join(map(q, ws)), q(m.group(1))))
out.append('''(** test/ifh-ignore.cxx:9-25 *)
Definition the_frame (ws : list string) : frame :=
  match argc_frame ws with Ret (Some (_, f)) => f | _ => empty_frame end.
Definition the_buf (f : frame) : buf :=
  match frame_to_buf f with Ret (_, b) => b | _ => [] end.
Definition the_mask (f : frame) : buf :=
  match frame_to_buf f with
  | Ret (f1, _) => match frame_mask_to_buf f1 with Ret b => b | _ => [] end
  | _ => [] end.

Example ifh_ignore :
  let f v := the_frame ["ifh-oc1"; "rew-val"; v; "eth"; "dmac"; "1::2"; "smac"; "3::4"] in
  let b1 := the_buf (f "0xabcdef") in
  let b2 := the_buf (f "0x123456") in
  let b3 := the_buf (f "ign") in
  let m3 := the_mask (f "ign") in
  (bequal_mask b1 b1 None 0, bequal_mask b2 b2 None 0, bequal_mask b3 b3 None 0,
   bequal_mask b1 b2 None 0, bequal_mask b1 b3 None 0, bequal_mask b2 b3 None 0,
   bequal_mask b1 b2 (Some m3) 0)
  = (Ret true, Ret true, Ret true, Ret false, Ret false, Ret false, Ret true).
Proof. vm_compute. reflexivity. Qed.
''')
open(os.path.join(os.path.dirname(__file__), '../rocq/theories/Conformance.v'), 'w').write('\n'.join(out))
print(n, k, w, v)
