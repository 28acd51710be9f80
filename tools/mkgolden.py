#!/usr/bin/env python3
"""Transcribes the golden files of /repo into rocq/theories/Golden.v:
the requests golden/*.parsed (protobuf text format; only the fields the
generator reads) and the expected outputs golden/*/*.zeropb.go, verbatim."""
import re
def parse(path):
    toks = re.findall(r'"(?:[^"\\]|\\.)*"|[<>{}:]|[^\s<>{}:"]+', open(path).read())
    pos = 0
    def msg(end):
        nonlocal pos
        out = []
        while pos < len(toks) and toks[pos] != end:
            k = toks[pos]; pos += 1
            if toks[pos] == ':': pos += 1
            if toks[pos] in '<{':
                close = '>' if toks[pos] == '<' else '}'
                pos += 1
                out.append((k, msg(close)))
                pos += 1
            else:
                out.append((k, toks[pos])); pos += 1
        return out
    return msg(None)
def get(m, k): 
    l = [v for (n, v) in m if n == k]
    return l[0] if l else None
def gets(m, k): return [v for (n, v) in m if n == k]
def opt(x): return 'None' if x is None else '(Some %s)' % x
def field(f):
    lab, typ = get(f, 'label'), get(f, 'type')
    return 'Some (mkField %s %s %s %s %s)' % (opt(get(f, 'name')), opt(get(f, 'number')), opt(lab), opt(typ), opt(get(f, 'type_name')))
def desc(d): return 'Some (mkDesc %s [\n      %s])' % (opt(get(d, 'name')), ';\n      '.join(map(field, gets(d, 'field'))))
def fil(f): return 'Some (mkFile %s %s [\n    %s])' % (opt(get(f, 'name')), opt(get(f, 'package')), ';\n    '.join(map(desc, gets(f, 'message_type'))))
def lit(s): return '"' + s.replace('"', '""') + '"'
out = ['(** Generated by tools/mkgolden.py from /repo/golden; do not edit.',
       '    The requests of the golden tests (golden/test.parsed, golden/raft.parsed)',
       '    and the expected outputs (golden/testzeropb/test.zeropb.go,',
       '    golden/raftzeropb/raft.zeropb.go). *)', 'From Verif Require Import Gen.', '']
for n in ['test', 'raft']:
    r = parse('/repo/golden/%s.parsed' % n)
    out.append('Definition %s_request : request := mkReq [%s] [\n  %s].' % (n, '; '.join(gets(r, 'file_to_generate')), ';\n  '.join(map(fil, gets(r, 'proto_file')))))
    out.append('Definition %s_output : string :=\n%s%%string.' % (n, lit(open('/repo/golden/%szeropb/%s.zeropb.go' % (n, n)).read())))
    out.append('')
open('/verif/rocq/theories/Golden.v', 'w').write('\n'.join(out))
