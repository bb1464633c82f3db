#!/usr/bin/env python3
"""Writes rocq/theories/M_Tables.v and M_Shape.v from the literal dictionaries of the repository (read as text, not run).
Usage: gen_tables.py REPO OUTDIR"""
import ast, sys
repo, out = sys.argv[1], sys.argv[2]
def load(path):
    d = {}
    for n in ast.parse(open(path).read()).body:
        if isinstance(n, ast.Assign):
            d[n.targets[0].id] = ast.literal_eval(n.value)
    return d
P = repo + '/composipy/pre_integrated_component/'
I, S = load(P + '_ii_F.py'), load(P + '_S.py')
src = open(P + '_ii_F.py').read().splitlines()
def line(lines, name):
    return next(k for k, l in enumerate(lines, 1) if l.startswith(name + ' = {'))
o = ['(** Generated by tools/gen_tables.py: the text of composipy/pre_integrated_component/_ii_F.py, row i, column k',
     '    holding the value stored under the key (i, k). *)',
     'From Coq Require Import String List.', 'Import ListNotations.', 'Open Scope string_scope.', 'Open Scope list_scope.', '']
for name in I['__all__']:
    t = I[name]
    assert list(t) == [(i, k) for i in range(30) for k in range(30)]
    a = line(src, name)
    o.append(f'(** _ii_F.py:{a}-{a+901} *)\nDefinition {name} : list (list string) := [')
    o.append(';\n'.join('  [' + '; '.join('"%s"' % t[(i, k)] for k in range(30)) + ']' for i in range(30)))
    o.append('].\n')
open(out + '/M_Tables.v', 'w').write('\n'.join(o))
F, SS = S['FXI'], S['S']
assert list(F) == list(range(50)) and list(SS) == [(i, j) for i in range(50) for j in range(50)]
src = open(P + '_S.py').read().splitlines()
bits = []
for i in range(50):
    r = ''
    for j in range(50):
        fx, fe = '(%s)' % F[i], '(%s)' % F[j].replace('xi', 'eta')
        if SS[(i, j)] == fe + '*' + fx: r += '0'
        elif SS[(i, j)] == fx + '*' + fe: r += '1'
        else: raise SystemExit((i, j))
    bits.append(r)
a, b = line(src, 'FXI'), line(src, 'S')
o = ['(** Generated by tools/gen_tables.py: the text of composipy/pre_integrated_component/_S.py. *)',
     'From Coq Require Import String List.', 'Import ListNotations.', 'Open Scope string_scope.', 'Open Scope list_scope.', '',
     f'(** _S.py:{a}-{a+51} *)\nDefinition FXI : list string := [']
o.append(';\n'.join('  "%s"' % F[i] for i in range(50)))
o.append('].\n')
o.append(f'''(** _S.py:{b}-{b+2501} : S. Every stored text is "(F)*(G)" where F is the text of FXI[i] and G that of FXI[j] with xi
    written eta, or "(G)*(F)". Only the order of the factors is kept (checked by the generator): character j of line i
    is 1 when the factor in xi comes first. *)
Definition xi_first : list string := [''')
o.append(';\n'.join('  "%s"' % r for r in bits))
o.append('].\n')
open(out + '/M_Shape.v', 'w').write('\n'.join(o))
