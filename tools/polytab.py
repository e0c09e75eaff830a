#!/usr/bin/env python3
"""Write the polynomial tables of /repo/src/math/poly.c as rocq/theories/Poly_Tables.v."""
import re
src = open('/repo/src/math/poly.c').read()
out = ["(** The four tables of /repo/src/math/poly.c, written by tools/polytab.py. A missing initialiser is 0. *)",
       "From Verif Require Import Base.", "Local Open Scope Z_scope.", "",
       "(** src/math/poly.h:16-21; the fields are unsigned int *)",
       "Record polynomial := P { p_m : Z; p_e1 : Z; p_e2 : Z; p_e3 : Z }.", ""]
for name in ['hp_trinomials', 'ansi_trinomials', 'hp_pentanomials', 'ansi_pentanomials']:
    start = src.index('static polynomial_t %s[] = {' % name)
    end = src.index('};', start) + 2
    first = src.count('\n', 0, start) + 1
    last = src.count('\n', 0, end) + 1
    body = src[src.index('{', start) + 1:end - 2]
    assert '/' not in body
    rows = []
    for ent in re.findall(r'\{([^{}]*)\}', body + '}' if body.count('{') > body.count('}') else body):
        v = [int(x) for x in ent.split(',') if x.strip()]
        v += [0] * (4 - len(v))
        rows.append('P %d %d %d %d' % tuple(v))
    out.append('(** src/math/poly.c:%d-%d, %d entries *)' % (first, last, len(rows)))
    out.append('Definition %s : list polynomial := [' % name)
    line = '  '
    for i, r in enumerate(rows):
        piece = r + ('' if i == len(rows) - 1 else '; ')
        if len(line) + len(piece) > 110:
            out.append(line.rstrip())
            line = '  '
        line += piece
    out.append(line.rstrip() + '].')
    out.append('')
open('/verif/rocq/theories/Poly_Tables.v', 'w').write('\n'.join(out))
