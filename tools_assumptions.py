"""Regenerates the "Print Assumptions" appendix of DESIGN.md (between the two markers).  Needs a compiled rocq/theories."""
import collections, json, os, re, subprocess, sys, tempfile
root = os.path.dirname(os.path.abspath(__file__))
claims = json.load(open(root + '/MANIFEST.json'))['claims']
names = [t for c in claims for t in c['theorems']]
mods = [l.strip()[9:-2] for l in open(root + '/rocq/_CoqProject') if l.startswith('theories/')]
loc = {}
for md in mods:
    cur = []
    for l in open(f'{root}/rocq/theories/{md}.v'):
        a = re.match(r'\s*Module (\w+)\.', l)
        if a: cur.append(a.group(1))
        a = re.match(r'\s*End (\w+)\.', l)
        if a and cur and cur[-1] == a.group(1): cur.pop()
        for n in re.findall(r'Theorem (C\d+_\w+)', l): loc.setdefault(n, '.'.join([md] + cur))
tmp = tempfile.mkdtemp()
with open(tmp + '/pa.v', 'w') as f:
    f.write('From Verif Require ' + ' '.join(mods) + '.\nFrom Coq Require Import String.\nOpen Scope string_scope.\n')
    for n in names: f.write(f'Eval compute in "@@{n}".\nPrint Assumptions {loc[n]}.{n}.\n')
out = subprocess.run(['coqc', '-Q', root + '/rocq/theories', 'Verif', 'pa.v'], cwd=tmp, capture_output=True, text=True)
if out.returncode: sys.exit(out.stdout[-500:] + out.stderr[-500:])
parts = re.split(r'= "@@(C\d+_\w+)"\s*: string\n', out.stdout)[1:]
short = {'ClassicalDedekindReals.sig_forall_dec': 'sig_forall_dec', 'ClassicalDedekindReals.sig_not_dec': 'sig_not_dec',
         'Classical_Prop.classic': 'classic', 'FunctionalExtensionality.functional_extensionality_dep': 'functional_extensionality_dep'}
groups = collections.OrderedDict()
for n, b in zip(parts[::2], parts[1::2]):
    ax = () if 'Closed under' in b else tuple(sorted(short[x] for x in set(re.findall(r'^([A-Za-z_.0-9]+)\s*(?::|$)', b, re.M)) - {'Axioms'}))
    groups.setdefault(ax, []).append(loc[n] + '.' + n)
assert sum(map(len, groups.values())) == len(names)
txt = ''
for ax, l in sorted(groups.items(), key=lambda g: len(g[0])):
    txt += ('\n**' + (', '.join(ax) if ax else 'Closed under the global context (no axioms)') + f'** ({len(l)} theorems): ' + ', '.join(f'`{n}`' for n in l) + '\n')
p = root + '/DESIGN.md'
s = open(p).read()
a, b = '<!-- assumptions -->', '<!-- end assumptions -->'
i, j = s.index(a) + len(a), s.index(b)
open(p, 'w').write(s[:i] + '\n' + txt + '\n' + s[j:])
print({k: len(v) for k, v in groups.items()})
