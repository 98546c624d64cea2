#!/usr/bin/env python3
"""Mutation experiments on the model.

usage: mutate.py SPEC.json [--log LOG.jsonl] [--jobs N] [--resume] [--near]
(--resume: leave out those already in the log; --near: recompile only what the
theorems of the properties in "breaks" need)

SPEC is a list of {"file", "definition", "old", "new", "edit", "claim", "breaks": [ids]}.
For each one the theories are copied outside /verif, the edit is applied and the
files are recompiled.  A proof that fails is replaced by Admitted and the file is
compiled again, so that Print Assumptions in the Props files tells which property
theorems no longer hold (or no longer have a proof).
MUTATE_ROOT: a built checkout to copy from, if not this one.
"""
import json, os, re, shutil, subprocess, sys, tempfile
from concurrent.futures import ThreadPoolExecutor
ROOT = os.environ.get('MUTATE_ROOT') or os.path.join(os.path.dirname(os.path.abspath(__file__)), '..')
TH = os.path.join(ROOT, 'rocq/theories')
order = [os.path.basename(l.strip()) for l in open(os.path.join(ROOT, 'rocq/_CoqProject')) if l.strip().endswith('.v')]
HEAD = re.compile(r'^\s*(?:Local |Global |#\[\w+\] )?(Lemma|Theorem|Example|Corollary|Fact|Remark)\s+(\w+)', re.M)

def deps(f):
    t = open(os.path.join(TH, f)).read()
    ds = set()
    for m in re.finditer(r'From Verif Require (?:Import |Export )?([^.]*)\.', t):
        ds |= {x + '.v' for x in m.group(1).split()}
    return ds
DEPS = {f: deps(f) for f in order}

def affected(f):
    out = {f}
    for g in order:
        if DEPS[g] & out: out.add(g)
    return [g for g in order if g in out]

def near(ids):
    """the files that the theorems of the properties need"""
    out = {g for g in order if 'Props' in g and
           any(re.search(r'^Theorem %s_' % i, open(os.path.join(TH, g)).read(), re.M) for i in ids)}
    for g in reversed(order):
        if g in out: out |= DEPS[g]
    return out

def compile_(d, f, timeout):
    """returns (ok, offset of failure, output); ok is None if the compiler was stopped, by the
    time limit, a signal or a lack of memory: then nothing is known about the proof"""
    try:
        p = subprocess.run(['coqc', '-time', '-Q', '.', 'Verif', f], cwd=d, stdout=subprocess.PIPE, stderr=subprocess.STDOUT, timeout=timeout)
        out = p.stdout.decode(errors='replace'); rc = p.returncode
    except subprocess.TimeoutExpired as e:
        out = (e.stdout or b'').decode(errors='replace'); rc = -1
    if rc == 0: return True, None, out
    stopped = rc < 0 or rc > 1 or not re.search(r'^Error', out, re.M) or re.search(r'Stack overflow|Out of memory', out)
    offs = [int(m.group(2)) for m in re.finditer(r'^Chars (\d+) - (\d+) ', out, re.M)]
    # offsets are bytes
    return None if stopped else False, (max(offs) if offs else 0), out

def admit(d, f, off):
    b = open(os.path.join(d, f), 'rb').read()
    src = b.decode(); pre = b[:off].decode(errors='ignore'); pos = len(pre)
    # skip white space and comments after pos
    i = pos
    while True:
        m = re.compile(r'\s+').match(src, i)
        if m: i = m.end(); continue
        if src.startswith('(*', i):
            depth = 0
            while True:
                if src.startswith('(*', i): depth += 1; i += 2
                elif src.startswith('*)', i):
                    depth -= 1; i += 2
                    if depth == 0: break
                else: i += 1
            continue
        break
    heads = [m for m in HEAD.finditer(src) if m.start() <= i]
    if not heads: return None
    h = heads[-1]
    q = re.compile(r'\b(Qed|Defined)\.').search(src, h.end())
    if not q or q.end() <= i: return None
    pr = re.compile(r'^\s*Proof\b|(?<=\.)\s+Proof\b', re.M).search(src, h.end())
    if not pr or pr.start() > i + 1: return ('STATEMENT', h.group(2))
    new = src[:pr.start()] + '\nAdmitted.' + src[q.end():]
    open(os.path.join(d, f), 'w').write(new)
    return (h.group(1), h.group(2))

def run(m, timeout=int(os.environ.get('MUTATE_LIMIT', '1500'))):
    d = tempfile.mkdtemp(prefix='mutdir_', dir='/tmp')
    try:
        for g in os.listdir(TH):
            if g.endswith(('.v', '.vo')): shutil.copy2(os.path.join(TH, g), d)
        p = os.path.join(d, m['file']); s = open(p).read()
        n = s.count(m['old'])
        if n < 1: return dict(m, error='pattern not found')
        if n > 1 and not m.get('nth'): return dict(m, error='pattern found %d times' % n)
        if m.get('nth'):
            k = -1
            for _ in range(m['nth']): k = s.index(m['old'], k + 1)
            s = s[:k] + m['new'] + s[k+len(m['old']):]
        else: s = s.replace(m['old'], m['new'])
        open(p, 'w').write(s)
        admitted, bad, failed, unknown = [], None, set(), []
        wanted = near(m['breaks']) if '--near' in sys.argv else set(order)
        for g in affected(m['file']):
            if g not in wanted: continue
            while True:
                ok, off, out = compile_(d, g, timeout)
                if ok: break
                a = admit(d, g, off)
                if a is None or a[0] == 'STATEMENT':
                    bad = '%s: %s' % (g, out[-600:]); break
                if ok is None: unknown.append(a[1]); continue
                admitted.append(a[1])
                if a[0] == 'Theorem': failed.add(a[1])
            if bad: break
            if 'Props' in g:
                src = open(os.path.join(d, g)).read()
                names = re.findall(r'^Print Assumptions (\w+)', src, re.M)
                res = re.findall(r'^(Closed under the global context|Axioms:)((?:\n(?!Chars ).*)*)', out, re.M)
                if len(names) != len(res): bad = 'assumption count mismatch in ' + g; break
                for nm, (r, rest) in zip(names, res):
                    if r.startswith('Axioms') and any(re.search(r'\b%s\b' % x, rest) for x in admitted): failed.add(nm)
        return dict(m, failed=sorted(failed), admitted=admitted, unknown=unknown, error=bad)
    finally:
        shutil.rmtree(d, ignore_errors=True)

def main():
    spec = json.load(open(sys.argv[1]))
    log = sys.argv[sys.argv.index('--log') + 1] if '--log' in sys.argv else None
    jobs = int(sys.argv[sys.argv.index('--jobs') + 1]) if '--jobs' in sys.argv else 2
    if '--resume' in sys.argv and log:
        seen = {(x['definition'], x['file'], x['edit']) for x in map(json.loads, open(log))}
        spec = [m for m in spec if (m['definition'], 'rocq/theories/' + m['file'], m['edit']) not in seen]
    def one(m):
        r = run(m)
        surv = [b for b in m.get('breaks', []) if not any(f.startswith(b + '_') for f in r.get('failed', []))]
        print('%-28s %-50s %s%s' % (m['definition'], m['edit'][:50], 'ERROR ' + r['error'] if r.get('error') else 'failed: %d' % len(r['failed']) + (' not decided: ' + ' '.join(r['unknown']) if r['unknown'] else ''),
              ('  SURVIVES ' + ' '.join(surv)) if surv else ''), flush=True)
        if log and not r.get('error'):
            with open(log, 'a') as f:
                f.write(json.dumps({'definition': m['definition'], 'file': 'rocq/theories/' + m['file'], 'edit': m['edit'],
                  'claim_broken': m['claim'], 'properties': m.get('breaks', []), 'theorems_failed': r['failed'],
                  'lemmas_failed': [a for a in r['admitted'] if a not in r['failed']], 'not_decided': r['unknown'],
                  'not_detected_by': surv, 'theorems_tightened': m.get('tightened', [])}, ensure_ascii=False) + '\n')
        return r
    with ThreadPoolExecutor(jobs) as ex: list(ex.map(one, spec))
main()
