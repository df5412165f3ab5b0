#!/usr/bin/env python3
"""Apply one seeded bug to a scratch copy of the model, rebuild what depends on it, and report
which lemmas no longer prove (their proofs are replaced by Admitted in the scratch copy so that the
rebuild can go on) and which property theorems rest on such a lemma (from Print Assumptions).
ONLY=PropsA,PropsB rebuilds only what these files need.
usage: seed.py SCRATCH MUTATION.json   with {"file","definition","old","new","edit","claim"}"""
import sys, os, re, json, subprocess, shutil
scratch, mfile = sys.argv[1], sys.argv[2]
m = json.load(open(mfile))
src = os.environ.get('SRC', '/verif/rocq')
lim = int(os.environ.get('LIM', '900'))
shutil.rmtree(scratch, ignore_errors=True)
shutil.copytree(src, scratch, symlinks=True)
order = [l.strip()[9:-2] for l in open(src + '/_CoqProject') if l.startswith('theories/')]
def deps(f):
    t = open(f'{scratch}/theories/{f}.v').read()
    r = set()
    for x in re.finditer(r'From Verif Require (?:Import|Export)?\s*([^.]*)\.', t):
        r |= set(x.group(1).split())
    return r
dep = {f: deps(f) for f in order}
done = []
while len(done) < len(order):
    for f in order:
        if f not in done and dep[f] <= set(done):
            done.append(f); break
order = done
only = [x for x in os.environ.get('ONLY', '').split(',') if x]
if only:
    need, todo = set(), list(only)
    while todo:
        f = todo.pop()
        if f not in need:
            need.add(f); todo += list(dep[f])
    order = [f for f in order if f in need]
p = f'{scratch}/theories/{m["file"]}.v'
t = open(p).read()
assert t.count(m['old']) == 1, (m['old'], t.count(m['old']))
open(p, 'w').write(t.replace(m['old'], m['new']))
dirty = {m['file']}
failed, stuck, props = [], [], {}
def run(f):
    try:
        r = subprocess.run(['coqc', '-q', '-time', '-Q', 'theories', 'Verif', f'theories/{f}.v'], cwd=scratch,
                           capture_output=True, text=True, timeout=lim)
        return r.returncode, r.stdout, r.stderr
    except subprocess.TimeoutExpired as e:
        out = (e.stdout or b'').decode(errors='replace')
        return 'timeout', out, ''
for f in order:
    if f != m['file'] and not (dep[f] & dirty):
        continue
    dirty.add(f)
    if any(d in stuck for d in dep[f]):
        stuck.append(f); continue
    for _ in range(60):
        rc, out, err = run(f)
        if rc == 0:
            if f.startswith('Props'):
                cur = None
                body = re.sub(r'^Chars .*$', '', out, flags=re.M)
                names = re.findall(r'Print Assumptions (\w+)', open(f'{scratch}/theories/{f}.v').read())
                blocks = re.split(r'(?m)^(?=Closed under the global context|Axioms:)', body)[1:]
                for n, b in zip(names, blocks):
                    if b.startswith('Axioms'):
                        props[n] = re.findall(r'(?m)^(\w+)\s*(?::|$)', b)[0:]
                # examples that fail are recorded through failed
            break
        text = open(f'{scratch}/theories/{f}.v').read()
        if rc == 'timeout':
            pos = max([int(x) for x in re.findall(r'^Chars \d+ - (\d+) ', out, flags=re.M)] or [0])
            pos = len(text.encode()[:pos].decode(errors='replace')) + 2
        else:
            x = re.search(r'line (\d+), characters (\d+)', err)
            if not x:
                stuck.append(f); break
            lines = text.split('\n')
            pos = sum(len(l) + 1 for l in lines[:int(x.group(1)) - 1]) + int(x.group(2))
        heads = [h for h in re.finditer(r'(?m)^\s*(?:Local |Global )?(?:Lemma|Theorem|Example|Corollary|Fact|Remark|Instance)\s+(\w+)', text) if h.start() <= pos]
        if not heads:
            stuck.append(f); break
        h = heads[-1]
        pr = re.search(r'\bProof\b[^.]*\.', text[h.start():])
        if not pr: stuck.append(f); break
        a = h.start() + pr.start()
        q = re.search(r'\b(Qed|Defined)\.', text[a:])
        if not q or a + q.end() < pos or pos < a:
            # error in a statement or in a definition after the lemma
            stuck.append(f + ' at ' + text[pos:pos+60].replace('\n', ' ')); stuck.append(f); break
        failed.append(f'{f}.{h.group(1)}' + (' (no answer in time)' if rc == 'timeout' else ''))
        open(f'{scratch}/theories/{f}.v', 'w').write(text[:a] + 'Admitted.' + text[a + q.end():])
    print(f, 'failed so far', len(failed), flush=True)
res = {"definition": m['file'] + '.' + m['definition'], "edit": m['edit'], "claim": m['claim'],
       "lemmas_failed": failed, "theorems_failed": sorted(set(props) | {x.split('.')[1].split(' ')[0] for x in failed if x.startswith('Props')}), "files_not_reached": stuck}
print(json.dumps(res))
with open(mfile + '.result', 'w') as o: json.dump(res, o)
