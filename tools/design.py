#!/usr/bin/env python3
"""Write DESIGN.md from tools/design_text.md, properties.jsonl, the manifest, the
citations in the models and the compiler's Print Assumptions output."""
import ast, collections, glob, json, os, re, subprocess, sys
root = os.path.dirname(os.path.dirname(os.path.abspath(__file__)))
th = root + '/rocq/theories/'
props = [json.loads(l) for l in open(root + '/properties.jsonl')]
claims = {c['property']: c for c in json.load(open(root + '/MANIFEST.json'))['claims']}
how = json.load(open(root + '/tools/how.json'))
where = {}
order = collections.OrderedDict()
for f in [l.strip().split('/')[-1] for l in open(root + '/rocq/_CoqProject') if 'Props' in l]:
    names = re.findall(r'^Theorem\s+(C\d+_\w+)', open(th + f).read(), re.M)
    order[f] = names
    for n in names:
        where[n] = f

def models(p):
    """model files that the Props files of this property import"""
    fs = sorted({where[t] for t in claims[p]['theorems']})
    out = []
    for f in fs:
        txt = open(th + f).read()
        for m in re.finditer(r'From Verif Require (?:Import|Export)\s+([^.]*)\.', txt):
            out += [x for x in m.group(1).split() if x.endswith('Model') and x not in out]
    return out, fs

plan = ['## 2. Plan per property', '',
        '"Modelled" names the Rocq files (without `.v`) that hold the model the theorems of the',
        'property speak about; the theorems are in the Props file.', '',
        '| Id | Property | Modelled in | Theorems in | How proved | Status |', '|---|---|---|---|---|---|']
for p in props:
    ms, fs = models(p['id'])
    plan.append('| %s | %s | %s | %s | %s | %s |' % (
        p['id'], p['title'], ', '.join(ms), ', '.join(f[:-2] for f in fs), how.get(p['id'], ''), claims[p['id']]['status']))

# coverage
cov = collections.defaultdict(lambda: collections.defaultdict(set))
for f in sorted(glob.glob(th + '*Model.v')) + [th + 'Py.v']:
    for m in re.finditer(r'((?:emote|tests/gym)/[A-Za-z_0-9/]+\.py):\s*((?:\d+(?:\s*[-–]\s*\d+)?(?:,\s*)?)+)', open(f).read()):
        for a in re.findall(r'(\d+)(?:\s*[-–]\s*(\d+))?', m.group(2)):
            cov[m.group(1)][os.path.basename(f)[:-2]] |= set(range(int(a[0]), int(a[1] or a[0]) + 1))
why = json.load(open(root + '/tools/unmodelled.json'))
cv = ['## 4. What is modelled and what is not', '',
      'A function counts as modelled if a definition of a model cites lines of its body. Logging,',
      'type annotations, docstrings and abstract methods are left out throughout; other omissions',
      'inside a modelled function are named in the comment of the definition that models it.', '',
      '| File of /repo | Modelled | Not modelled |', '|---|---|---|']
REPO = os.environ.get('REPO', '/repo')
def funcs(tree, pre=''):
    for n in ast.iter_child_nodes(tree):
        if isinstance(n, ast.ClassDef):
            yield from funcs(n, pre + n.name + '.')
        elif isinstance(n, (ast.FunctionDef, ast.AsyncFunctionDef)):
            yield pre + n.name, n
for r, d, fs in sorted(os.walk(REPO + '/emote')) + [(REPO + '/tests/gym', [], ['collector.py', 'dict_gym_wrapper.py', 'hit_the_middle.py'])]:
    for x in sorted(fs):
        if not x.endswith('.py'):
            continue
        path = os.path.relpath(os.path.join(r, x), REPO)
        tree = ast.parse(open(os.path.join(REPO, path)).read())
        lines = set().union(*cov[path].values()) if path in cov else set()
        yes, no = [], []
        for name, n in funcs(tree):
            body = n.body
            if isinstance(body[0], ast.Expr) and isinstance(getattr(body[0], 'value', None), ast.Constant):
                body = body[1:]
            real = [b for b in body if not isinstance(b, (ast.Pass,)) and not (isinstance(b, ast.Raise) and 'NotImplemented' in ast.dump(b)) and not (isinstance(b, ast.Expr) and isinstance(b.value, ast.Constant))]
            if not real:
                continue
            rng = set(range(body[0].lineno, n.end_lineno + 1))
            (yes if rng & lines else no).append(name)
        if not yes and not no:
            continue
        mods = ', '.join(sorted(cov[path])) if path in cov else ''
        left = ', '.join('`%s`' % n for n in no)
        if left and path in why:
            left += ': ' + why[path]
        cv.append('| %s%s | %s | %s |' % (path, ' (%s)' % mods if mods else '', ', '.join('`%s`' % n for n in yes) or '-', left or '-'))

# assumptions
asm = ['## 5. Print Assumptions', '',
       '"closed" stands for `Closed under the global context`; R1 for',
       '`ClassicalDedekindReals.sig_forall_dec`, R2 for `ClassicalDedekindReals.sig_not_dec`, F for',
       '`FunctionalExtensionality.functional_extensionality_dep`, C for `Classical_Prop.classic`.', '']
short = {'ClassicalDedekindReals.sig_forall_dec': 'R1', 'ClassicalDedekindReals.sig_not_dec': 'R2',
         'FunctionalExtensionality.functional_extensionality_dep': 'F', 'Classical_Prop.classic': 'C'}
cache_file = '/tmp/assumptions.json'
cache = json.load(open(cache_file)) if os.path.exists(cache_file) else {}
for f, names in order.items():
    vo = th + f + 'o'
    key = f + str(os.path.getmtime(vo))
    if key not in cache:
        sys.stderr.write('compiling %s\n' % f)
        out = subprocess.run(['coqc', '-q', '-Q', 'theories', 'Verif', '-o', '/tmp/%so' % f, 'theories/' + f],
                             cwd=root + '/rocq', capture_output=True, text=True, check=True).stdout
        blocks = re.split(r'^(?=Closed under|Axioms:)', out, flags=re.M)[1:]
        printed = re.findall(r'^Print Assumptions (\w+)\.', open(th + f).read(), re.M)
        assert len(blocks) == len(printed), (f, len(blocks), len(printed))
        res = {}
        for n, b in zip(printed, blocks):
            res[n] = 'closed' if b.startswith('Closed') else ' '.join(sorted(short.get(a, a) for a in re.findall(r'^([A-Z]\w*\.[\w.]+)', b, re.M)))
        cache[key] = res
    res = cache[key]
    groups = collections.OrderedDict()
    for n in names:
        groups.setdefault(res[n], []).append(n)
    asm.append('* `%s`: ' % f + '; '.join('**%s**: %s' % (g, ', '.join(ns)) for g, ns in groups.items()))
json.dump(cache, open(cache_file, 'w'))

fd = ['## 6. Findings', '', 'Where the code does not do what the property says, or does something worth knowing:', '']
for p in props:
    c = claims[p['id']]
    bad = [t for t in c['theorems'] if t.endswith('_refuted') or t.endswith('_finding')]
    if bad:
        fd.append('* %s (%s). %s Theorems: %s.' % (p['id'], p['title'], c['note'], ', '.join(bad)))

text = open(root + '/tools/design_text.md').read()
for k, v in (('PLAN', plan), ('COVERAGE', cv), ('ASSUMPTIONS', asm), ('FINDINGS', fd)):
    text = text.replace('@@%s@@' % k, '\n'.join(v))
open(root + '/DESIGN.md', 'w').write(text)
print('DESIGN.md', len(text.split('\n')), 'lines')
