#!/usr/bin/env python3
"""Generate rocq/theories/Templates.v and HelpTexts.v from the header tables of
/repo/src.

The tables (field_t X[] / hdr_t HDR_X), the initialisation calls (def_offset,
def_val) and the order of hdr_tmpls are copied; nothing is computed here, the
layout and the default values are computed in Coq by the model of def_offset
and def_val.
"""
import re, sys, os

SRC = '/repo/src'
FILES = ['ef-ifh.c', 'ef-eth.c', 'ef-vlan.c', 'ef-arp.c', 'ef-ipv4.c',
         'ef-ipv6.c', 'ef-icmp.c', 'ef-igmp.c', 'ef-mld.c', 'ef-udp.c',
         'ef-payload.c', 'ef-padding.c', 'ef-oam.c', 'ef-mrp.c', 'ef-ptp.c',
         'ef-profinet.c', 'ef-opcua.c', 'ef-coap.c', 'ef-sv.c']

PARSER = {None: 'FP_default', 'parse_field_hex': 'FP_field_hex',
          'coap_parse_code': 'FP_coap_code', 'coap_parse_token': 'FP_coap_token',
          'coap_parse_option_value': 'FP_coap_opt_val',
          'coap_parse_parms': 'FP_coap_parms',
          'profinet_data_parser': 'FP_profinet',
          'opc_parse_uint16': 'FP_opc16'}
HPARSER = {None: 'HP_none', 'hdr_parse_fields': 'HP_fields',
           'payload_parser': 'HP_payload', 'padding_parser': 'HP_padding'}
FILL = {('*', None): 'FL_none',
        ('ef-eth.c', 'eth_fill_defaults'): 'FL_ether',
        ('ef-vlan.c', 'vlan_fill_defaults'): 'FL_ether',
        ('ef-ipv4.c', 'ipv4_fill_defaults'): 'FL_ipv4',
        ('ef-ipv6.c', 'ipv6_fill_defaults'): 'FL_ipv6',
        ('ef-icmp.c', 'icmp_fill_defaults'): 'FL_icmp',
        ('ef-igmp.c', 'igmp_fill_defaults'): 'FL_igmp',
        ('ef-mld.c', 'mld_fill_defaults'): 'FL_mld',
        ('ef-udp.c', 'udp_tcp_fill_defaults'): 'FL_udp_tcp',
        ('ef-ptp.c', 'fill_defaults'): 'FL_ptp',
        ('ef-ptp.c', 'tlv_fill_defaults'): 'FL_ptp_tlv',
        ('ef-coap.c', 'coap_fill_defaults'): 'FL_coap',
        ('ef-coap.c', 'options_fill_defaults'): 'FL_coap_opt',
        ('ef-sv.c', 'sv_fill_defaults'): 'FL_sv'}
NOP = re.compile(r'static int %s\(struct frame \*f, int stack_idx\) \{\s*return 0;\s*\}')


def strip_comments(t):
    """Remove comments, keep strings and line numbers."""
    out, i = [], 0
    while i < len(t):
        if t[i] == '"':
            j = i + 1
            while t[j] != '"':
                j += 2 if t[j] == '\\' else 1
            out.append(t[i:j + 1]); i = j + 1
        elif t.startswith('//', i):
            i = t.index('\n', i)
        elif t.startswith('/*', i):
            j = t.index('*/', i) + 2
            out.append('\n' * t.count('\n', i, j)); i = j
        else:
            out.append(t[i]); i += 1
    return ''.join(out)


TOK = re.compile(r'"(?:[^"\\]|\\.)*"|[A-Za-z_]\w*|0x[0-9a-fA-F]+|\d+|\S')


def tokens(t, line):
    res = []
    pos = 0
    for m in TOK.finditer(t):
        line += t.count('\n', pos, m.start())
        pos = m.start()
        res.append((m.group(0), line))
    return res


def block(t, start):
    """Text between the braces opening at or after start, with end offset."""
    i = t.index('{', start)
    d, j, instr = 0, i, False
    while True:
        c = t[j]
        if instr:
            if c == '\\': j += 1
            elif c == '"': instr = False
        elif c == '"': instr = True
        elif c == '{': d += 1
        elif c == '}':
            d -= 1
            if d == 0: return i, j
        j += 1


def members(tok):
    """.a = expr, .b = expr ..."""
    res, i = {}, 0
    while i < len(tok):
        if tok[i][0] == ',': i += 1; continue
        assert tok[i][0] == '.', tok[i]
        name = tok[i + 1][0]
        assert tok[i + 2][0] == '=', tok[i:i + 3]
        j, d = i + 3, 0
        e = []
        while j < len(tok) and not (tok[j][0] == ',' and d == 0):
            if tok[j][0] in '([': d += 1
            if tok[j][0] in ')]': d -= 1
            e.append(tok[j][0]); j += 1
        assert name not in res
        res[name] = e
        i = j
    return res


def enums(t):
    """enumerators of all anonymous enums of the file, with value"""
    res = {}
    for m in re.finditer(r'\benum\s*\{([^}]*)\}', t):
        v = 0
        for e in m.group(1).split(','):
            e = e.strip()
            if not e: continue
            assert '=' not in e, e
            res[e] = v; v += 1
    return res


def const(e):
    s = ' '.join(e)
    assert re.fullmatch(r'[\d\s()*xa-fA-F]+', s), s
    return eval(s)


def cstr(e):
    assert len(e) == 1 and e[0][0] == '"', e
    s = e[0][1:-1]
    assert '\\' not in s
    return s


def ctext(e):
    """The text of adjacent string literals, as a Coq string."""
    assert e and all(x[0] == '"' for x in e), e
    s = ''.join(x[1:-1] for x in e)
    assert not re.search(r'\\[^n"\\]', s), s
    s = re.sub(r'\\(.)', lambda m: '\n' if m.group(1) == 'n' else m.group(1), s)
    assert all(c == '\n' or 32 <= ord(c) < 127 for c in s), s
    return '"%s"' % s.replace('"', '""')


def opt(e):
    return 'Some %s' % ctext(e) if e else 'None'


out = []
hdrs = {}
helps = {}
order = re.search(r'typedef enum \{(\s*HDR_TMPL_.*?)\}\s*hdr_tmpl_t', open(SRC + '/ef.h').read(), re.S) \
    or re.search(r'enum\s*\w*\s*\{(\s*HDR_TMPL_.*?)\}', open(SRC + '/ef.h').read(), re.S)
order = [x.strip().split('=')[0].strip() for x in strip_comments(order.group(1)).split(',') if x.strip()]
assert order[-1] == 'HDR_TMPL_SIZE', order[-3:]
order = order[:-1]
tmpl = {}
allflds = 0

out.append('''(** GENERATED by tools/gen_templates.py from the tables of /repo/src -- do not edit.

    For every [static field_t X[]] the fields in order (name, width, explicit
    offset, parser), for every [static hdr_t HDR_X] the header before
    initialisation and then the header after the calls of def_offset and
    def_val in its init function.  [rx_match_skip] is nowhere initialised, so it
    is false; a member that the table does not mention is 0 / NULL.  The help
    texts are left out. *)

From Verif Require Export FieldParsers.

(** A field as the tables give it. *)
Definition fld (n : string) (w o : Z) (p : field_parser) : field :=
  MkField n false w o None None p.

(** def_val applied to a header under construction. *)
Definition dv (n v : string) (h : out hdr) : out hdr := x <- h;; def_val n v x.

(** The header a (successful) construction yields. *)
Definition the_hdr (o : out hdr) : hdr :=
  match o with
  | Ret h => h
  | Crash _ => MkHdr "" 0 0 [] FL_none HP_none
  end.
''')

for fn in FILES:
    raw = open(SRC + '/' + fn, encoding='utf-8-sig').read()
    t = strip_comments(raw)
    assert t.count('\n') == raw.count('\n')
    en = enums(t)
    line = lambda p: t.count('\n', 0, p) + 1
    out.append('\n(** ** src/%s *)\n' % fn)
    fields = {}
    fhelp = {}
    for m in re.finditer(r'^static field_t (\w+)\[\] = ', t, re.M):
        a, b = block(t, m.start())
        body = t[a + 1:b]
        assert '#' not in re.sub(r'"(?:[^"\\]|\\.)*"', '', body)
        pos, idx, fl = a + 1, 0, []
        fh = fhelp.setdefault(m.group(1), [])
        while True:
            k = t.find('{', pos, b)
            if k < 0: break
            pre = t[pos:k].replace(',', ' ').strip()
            if pre:
                e = re.fullmatch(r'\[\s*(\w+)\s*\]\s*=', pre)
                assert e, pre
                assert en[e.group(1)] == idx, (pre, idx)
            x, y = block(t, k)
            mem = members(tokens(t[x + 1:y], line(x)))
            assert set(mem) <= {'name', 'help', 'bit_width', 'bit_offset', 'parser', 'parser_multi'}, mem.keys()
            p = mem.get('parser') or mem.get('parser_multi')
            assert not ('parser' in mem and 'parser_multi' in mem)
            fl.append((cstr(mem['name']), const(mem['bit_width']),
                       const(mem['bit_offset']) if 'bit_offset' in mem else 0,
                       PARSER[p[0] if p else None], line(x)))
            fh.append(opt(mem.get('help')))
            idx += 1
            pos = y + 1
        assert t[pos:b].strip(' \n,') == '', t[pos:b]
        name = m.group(1)
        fields[name] = len(fl)
        allflds += len(fl)
        out.append('(** src/%s:%d-%d *)\nDefinition %s : list field :=\n  [ %s ].\n' % (
            fn, line(m.start()), line(b), name,
            ';\n    '.join('fld "%s" %d %d %s (* %d *)' % f for f in fl)))
    for m in re.finditer(r'^(?:static )?hdr_t (HDR_\w+) = ', t, re.M):
        a, b = block(t, m.start())
        mem = members(tokens(t[a + 1:b], line(a)))
        assert set(mem) <= {'name', 'help', 'fields', 'fields_size', 'type', 'parser', 'frame_fill_defaults'}, mem.keys()
        fl = mem.get('fields')
        if fl:
            fs = ''.join(mem['fields_size'])
            assert fs == 'sizeof(%s)/sizeof(%s[0])' % (fl[0], fl[0]), fs
            assert fl[0] in fields
        fill = mem.get('frame_fill_defaults', [None])[0]
        if fill == 'ether_type_fill_defaults':
            fk = 'FL_ether'
        elif fill is None:
            fk = 'FL_none'
        elif (fn, fill) in FILL:
            fk = FILL[(fn, fill)]
        else:
            assert re.search(NOP.pattern % fill, t), (fn, fill)
            fk = 'FL_none'
        nm = m.group(1)
        # initialisation
        calls = []
        for c in re.finditer(r'(def_offset|def_val)\(&%s(?:,\s*("[^"]*"),\s*("[^"]*"))?\);' % nm, t):
            calls.append((c.group(1), c.group(2), c.group(3), line(c.start())))
        out.append('(** src/%s:%d-%d *)\nDefinition %s_0 : hdr :=\n  MkHdr "%s" %s 0 %s %s %s.\n' % (
            fn, line(m.start()), line(b), nm, cstr(mem['name']),
            const(mem['type']) if 'type' in mem else 0,
            fl[0] if fl else '[]', fk, HPARSER[mem.get('parser', [None])[0]]))
        if calls:
            assert calls[0][0] == 'def_offset' and all(c[0] == 'def_val' for c in calls[1:]), (nm, calls)
            e = 'Ret (def_offset %s_0)' % nm
            for c in calls[1:]:
                e = 'dv %s %s\n    (%s)' % (c[1], c[2], e)
            out.append('(** src/%s:%d-%d *)\nDefinition %s_init : out hdr :=\n    %s.\n' % (
                fn, calls[0][3], calls[-1][3], nm, e))
        else:
            out.append('(** never initialised further *)\nDefinition %s_init : out hdr := Ret %s_0.\n' % (nm, nm))
        out.append('Definition %s : hdr := Eval vm_compute in the_hdr %s_init.\n' % (nm, nm))
        out.append('Lemma %s_ok : %s_init = Ret %s.\nProof. vm_compute. reflexivity. Qed.\n' % (nm, nm, nm))
        hdrs[nm] = fn
        helps[nm] = (fn, line(m.start()), cstr(mem['name']), opt(mem.get('help')), fhelp[fl[0]] if fl else [])
    for m in re.finditer(r'hdr_tmpls\[(\w+)\]\s*=\s*&(\w+);', t):
        assert m.group(1) not in tmpl
        tmpl[m.group(1)] = m.group(2)

assert set(order) == set(tmpl), (set(order) ^ set(tmpl))
out.append('''
(** ** hdr_tmpls, in the order of the enum hdr_tmpl (src/ef.h:199-257) *)
Definition hdr_tmpls : list hdr :=
  [ %s ].
''' % ';\n    '.join(tmpl[x] for x in order))
path = os.path.join(os.path.dirname(__file__), '../rocq/theories/Templates.v')
open(path, 'w').write('\n'.join(out))

args = open(SRC + '/ef-args.c', encoding='utf-8-sig').read()
m = re.search(r'^void print_help\(\) \{\n(.*?)^\}', args, re.M | re.S)
usage = []
for l in m.group(1).splitlines():
    e = re.fullmatch(r'    po\(("(?:[^"\\]|\\.)*")\);', l)
    assert e and '%' not in l, l
    usage.append(e.group(1))
first = args.count('\n', 0, m.start()) + 1
htext = ['''(** GENERATED by tools/gen_templates.py from /repo/src -- do not edit.

    The texts of the help: the member [help] of the headers and of their fields
    ([None]: NULL), and the text of print_help. *)

From Verif Require Export Templates.

(** For every header of [hdr_tmpls] its name, its text and the texts of its fields. *)
Definition help_texts : list (string * (option string * list (option string))) :=
  [''']
for i, x in enumerate(order):
    fn, ln, name, h, fh = helps[tmpl[x]]
    htext.append('    (* src/%s:%d *)\n    ("%s", (%s,\n      [ %s ]))%s' % (
        fn, ln, name, h, ';\n        '.join(fh), ';' if i + 1 < len(order) else ''))
htext.append('''  ]%string.

(** src/ef-args.c:'''+'%d-%d *)' % (first, first + len(usage) + 1))
htext.append('Definition usage_text : string :=\n  %s%%string.' % ctext(usage))
open(os.path.join(os.path.dirname(__file__), '../rocq/theories/HelpTexts.v'), 'w').write('\n'.join(htext) + '\n')
print(len(order), 'templates', allflds, 'fields')
