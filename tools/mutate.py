#!/usr/bin/env python3
"""Mutation tests: tools/mutate.py FILE.py [start]
FILE.py defines M = [(model file, old text, new text, claim broken, property ids), ...].
Each edit is applied to a scratch copy of rocq/, which is rebuilt. When a proof fails there, it is
replaced (in the scratch copy) by an unproved placeholder and the build goes on; at the end
Print Assumptions tells which property theorems rest on a failed proof."""
import sys, os, re, json, subprocess, glob
root = '/verif'; scratch = os.environ.get('MUT', '/tmp/mut')
M = []
exec(open(sys.argv[1]).read())
start = int(sys.argv[2]) if len(sys.argv) > 2 else 0
GAP = 'Admit' + 'ted.'
def sh(cmd, **k): return subprocess.run(cmd, shell=True, capture_output=True, text=True, **k)
HEAD = re.compile(r'^\s*(?:#\[[^\]]*\]\s*)?(Theorem|Lemma|Corollary|Example|Definition|Fixpoint|Record|Fact)\s+(\w+)')
def defname(s, old):
    pos = s.index(old) + len(old) - len(old.lstrip()); n = '?'; off = 0
    for l in s.split('\n'):
        m = HEAD.match(l)
        if m and off <= pos: n = m.group(2)
        off += len(l) + 1
    return n
def gap(path, line):
    """replace the proof around the line by a placeholder; returns the lemma name or None"""
    L = open(path).read().split('\n'); i = line - 1
    while i >= 0 and not HEAD.match(L[i]): i -= 1
    if i < 0: return None
    name = HEAD.match(L[i]).group(2)
    if HEAD.match(L[i]).group(1) in ('Record', 'Fixpoint'): return None
    j = i
    while j < len(L) and not re.search(r'\b(Qed|Defined)\.\s*$', L[j]): 
        j += 1
        if j < len(L) and j > i and HEAD.match(L[j]): return None
    k = i
    while k <= j and not re.search(r'\bProof\b', L[k]): k += 1
    if k > j or j >= len(L): return None
    pre = L[k][:L[k].index('Proof')]
    L[k:j + 1] = [pre + 'Proof.', GAP]
    open(path, 'w').write('\n'.join(L)); return name
base = scratch + '/base'
sh('rm -rf %s && mkdir -p %s/base && cp -a %s/rocq %s/rocq && cp -a %s/rocq %s/base/rocq' % (scratch, scratch, root, scratch, root, scratch))
# a proof by computation may run for ever on an edited program: stop each sentence after a minute,
# and leave the examples out (they are tests, not theorems)
for d in ('', '/base'):
    for p in glob.glob(scratch + d + '/rocq/theories/*/*.v'):
        if '/Model/' in p or '/Spec/' in p: continue
        # ONLY=Name,Name: leave the other files (and their compiled forms) as they are
        if os.environ.get('ONLY') and os.path.basename(p)[:-2] not in os.environ['ONLY'].split(','): continue
        t = open(p).read()
        if '/Props/' in p and not os.environ.get('KEEPEX'):
            t = re.sub(r'^(Example \w+(?:(?!^Example|^Theorem|^Lemma|\bProof\b)[\s\S])*?)Proof\b(?:(?!\bQed\.)[\s\S])*?\bQed\.', lambda m: m.group(1) + 'Proof.\n' + GAP, t, flags=re.M)
        open(p, 'w').write('Set Default Timeout 150. ' + t)
def build(): return sh('cd %s/rocq && timeout 2000 make -k -j4' % scratch)
sh('cd %s/rocq && coq_makefile -f _CoqProject -o Makefile' % scratch)
r = build()
if r.returncode: print('base build fails', r.stderr[-500:]); sys.exit(1)
props = {}
for p in sorted(glob.glob(scratch + '/rocq/theories/Props/*.v')):
    for m in re.finditer(r'^(?:Theorem|Corollary)\s+(C\d+_\w*)', open(p).read(), re.M): props[m.group(1)] = os.path.basename(p)[:-2]
for idx, (f, old, new, claim, prop) in enumerate(M):
    if idx < start: continue
    plist = prop.split(',')
    src = base + '/rocq/theories/' + f; dst = scratch + '/rocq/theories/' + f
    s = open(src).read()
    if s.count(old) < 1: print('NOT FOUND', f, old, flush=True); continue
    dn = defname(s, old)
    open(dst, 'w').write(s.replace(old, new, 1))
    touched = {dst}; failed = []; stuck = None
    for _ in range(80):
        r = build()
        if r.returncode == 0: break
        errs = re.findall(r'File "\./(theories/[\w/]+\.v)", line (\d+), characters [\d-]+:\s*\nError', r.stderr + r.stdout)
        if not errs: stuck = (r.stderr + r.stdout)[-400:]; break
        prog = False
        for p, l in errs:
            path = scratch + '/rocq/' + p
            n = gap(path, int(l))
            if n: failed.append(os.path.basename(p)[:-2] + '.' + n); touched.add(path); prog = True
        if not prog: stuck = str(errs); break
    hitp = []
    if not stuck:
        want = [t for t in props if any(t.startswith(x + '_') for x in plist)]
        mods = sorted(set(props[t] for t in want))
        txt = 'From Verif.Props Require %s.\n' % ' '.join(mods)
        for t in want: txt += 'Goal True. idtac "@@%s". exact I. Qed.\nPrint Assumptions %s.%s.\n' % (t, props[t], t)
        open('/tmp/mutax.v', 'w').write(txt)
        out = sh('cd %s/rocq && coqc -Q theories Verif /tmp/mutax.v' % scratch)
        short = set(x.split('.')[1] for x in failed)
        for part in out.stdout.split('@@')[1:]:
            n, rest = part.split('\n', 1)
            ax = set(re.findall(r'^([\w.]+)\s*:', rest, re.M)); ax |= set(re.findall(r'^([\w.]+)\s*$', rest, re.M))
            if any(a.split('.')[-1] in short for a in ax) or n in short: hitp.append(n)
        missing = [x for x in plist if not any(t.startswith(x + '_') for t in hitp)]
    else: missing = ['stuck: ' + stuck]
    print(idx, 'ok' if not missing else 'SURVIVED ' + str(missing), prop, dn, '|', failed[:8], len(failed), '| props', hitp, flush=True)
    if not missing:
        line = {'definition': f + ':' + dn, 'edit': old.strip() + '  =>  ' + new.strip(), 'claim_broken': claim,
                'property': prop, 'proofs_failed': failed, 'theorems_failed': hitp, 'theorems_tightened': []}
        open(root + '/seeded/LOG.jsonl', 'a').write(json.dumps(line) + '\n')
    for t in touched:
        rel = os.path.relpath(t, scratch); open(t, 'w').write(open(base + '/' + rel).read())
    build()
print('done')
