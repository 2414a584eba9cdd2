"""Print Assumptions for every theorem in MANIFEST.json; writes ASSUMPTIONS.md.
Needs the compiled files in rocq/theories."""
import collections, glob, json, os, re, subprocess, tempfile
root = os.path.join(os.path.dirname(os.path.abspath(__file__)), '..')
th = collections.OrderedDict()
for f in sorted(glob.glob(root + '/rocq/theories/*.v')):
    for m in re.finditer(r'^Theorem\s+(C\d\d+_\w+)', open(f).read(), re.M):
        th[m.group(1)] = os.path.basename(f)[:-2]
cache_file = '/tmp/assumptions.json'
cache = json.load(open(cache_file)) if os.path.exists(cache_file) else {}
res = {}
for f in sorted(set(th.values())):
    names = [t for t in th if th[t] == f]
    vo = root + '/rocq/theories/%s.vo' % f
    key = '%s %s' % (f, os.path.getmtime(vo))
    if key not in cache:
        src = 'From Verif Require Import %s.\n' % f
        for t in names:
            src += 'Goal True. idtac "@@%s". exact I. Qed.\nPrint Assumptions %s.\n' % (t, t)
        with tempfile.TemporaryDirectory() as d:
            open(d + '/a.v', 'w').write(src)
            p = subprocess.run(['coqc', '-Q', root + '/rocq/theories', 'Verif', d + '/a.v'], capture_output=True, text=True)
        assert p.returncode == 0, p.stderr
        got = {}
        for part in p.stdout.split('@@')[1:]:
            n, _, rest = part.partition('\n')
            got[n] = sorted(set(re.findall(r'^([A-Z][\w.]+)\s*:', rest, re.M)) - {'Axioms'})
        cache[key] = got
        json.dump(cache, open(cache_file, 'w'))
    res.update(cache[key])
groups = collections.defaultdict(list)
for t in sorted(res):
    groups[tuple(res[t])].append(t)
out = ['# Axioms used by each theorem', '', 'Output of `Print Assumptions`, grouped by the set of axioms. All are axioms of the Coq standard library.', '']
for k in sorted(groups, key=len):
    out.append('## ' + (', '.join('`%s`' % a for a in k) if k else 'None (closed under the global context)'))
    out.append('')
    out.append('%d theorems: ' % len(groups[k]) + ', '.join('`%s`' % t for t in groups[k]) + '.')
    out.append('')
open(root + '/ASSUMPTIONS.md', 'w').write('\n'.join(out))
print(len(res), 'theorems,', len(groups), 'groups')
