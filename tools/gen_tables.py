#!/usr/bin/env python3
"""Extract the byte-type tables and the naming bitmap of /repo into rocq/theories/Tables.v."""
import re
src = open('/repo/src/lib/xmltok.rs').read()
nt = open('/repo/src/lib/nametab.rs').read()
out = []
out.append('''(* GENERATED by tools/gen_tables.py from /repo/src/lib/xmltok.rs and /repo/src/lib/nametab.rs.
   Do not edit. *)
From Coq Require Import List NArith.
From Verif Require Import Base.
Import ListNotations.
Local Open Scope N_scope.
''')
for m in re.finditer(r'impl NormalEncodingTable for (\w+) \{(.*?)\n\}', src, re.S):
    name, body = m.group(1), m.group(2)
    line0 = src[:m.start()].count('\n') + 1
    line1 = src[:m.end()].count('\n') + 1
    code = re.sub(r'//[^\n]*', '', re.sub(r'/\*.*?\*/', '', body.split('=', 1)[1], flags=re.S))
    items = re.findall(r'ByteType::(\w+)', code)
    assert len(items) == 256, (name, len(items))
    out.append(f'(* xmltok.rs:{line0}-{line1} {name}::types *)')
    out.append(f'Definition {name} : list ByteType := [')
    rows = []
    for i in range(0, 256, 8):
        rows.append('  ' + '; '.join('BT_' + x for x in items[i:i+8]))
    out.append(';\n'.join(rows) + '\n].\n')
for name, n in (('namingBitmap', 320), ('nmstrtPages', 256), ('namePages', 256)):
    m = re.search(r'pub const %s: [^=]*= \[(.*?)\];' % name, nt, re.S)
    line0 = nt[:m.start()].count('\n') + 1
    line1 = nt[:m.end()].count('\n') + 1
    body = re.sub(r'/\*.*?\*/', '', m.group(1), flags=re.S)
    items = [int(x, 0) for x in re.findall(r'0x[0-9A-Fa-f]+|\d+', body)]
    assert len(items) == n, (name, len(items))
    out.append(f'(* nametab.rs:{line0}-{line1} {name} *)')
    out.append(f'Definition {name} : list N := [')
    rows = []
    for i in range(0, n, 8):
        rows.append('  ' + '; '.join(str(x) for x in items[i:i+8]))
    out.append(';\n'.join(rows) + '\n].\n')
open('/verif/rocq/theories/Tables.v', 'w').write('\n'.join(out))
