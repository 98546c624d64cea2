#!/usr/bin/env python3
"""Mechanical mutation of every definition of the model.

usage: sweep.py OUT.jsonl [--jobs N] [--per N] [--files REGEX] [--seed N] [--skip-logged LOG.jsonl]

Small edits are generated from the text of each definition in the *Model*.v files:
comparisons, connectives, constants, branches, signs.  For each, everything that rests on the file
is recompiled until the first proof fails.  An edit after which everything still
compiles is a survivor and has to be looked at: it is harmless, or a theorem is too weak.
The theorems reported are those whose proofs refer, directly or not, to the lemma that
failed.  MUTATE_ROOT: a built checkout to copy from, if not this one.
"""
import json, os, random, re, shutil, subprocess, sys, tempfile
from concurrent.futures import ThreadPoolExecutor
ROOT = os.environ.get('MUTATE_ROOT') or os.path.join(os.path.dirname(os.path.abspath(__file__)), '..')
TH = os.path.join(ROOT, 'rocq/theories')
order = [os.path.basename(l.strip()) for l in open(os.path.join(ROOT, 'rocq/_CoqProject')) if l.strip().endswith('.v')]
SRC = {f: open(os.path.join(TH, f)).read() for f in order}
HEAD = re.compile(r'^\s*(?:Local |Global |#\[\w+\] )?(Lemma|Theorem|Example|Corollary|Fact|Remark)\s+(\w+)', re.M)
DEPS = {f: {x + '.v' for m in re.finditer(r'From Verif Require (?:Import|Export) ([^.]*)\.', SRC[f]) for x in m.group(1).split()} for f in order}

def opt(name, default):
    return sys.argv[sys.argv.index(name) + 1] if name in sys.argv else default

def affected(f):
    out = {f}
    for g in order:
        if DEPS[g] & out: out.add(g)
    return [g for g in order if g in out]

def strip(t):
    """comments blanked, offsets kept"""
    out, d, i = list(t), 0, 0
    while i < len(t):
        if t.startswith('(*', i): d += 1; out[i] = out[i+1] = ' '; i += 2; continue
        if t.startswith('*)', i) and d: d -= 1; out[i] = out[i+1] = ' '; i += 2; continue
        if d and t[i] != '\n': out[i] = ' '
        i += 1
    return ''.join(out)

# which statements refer to which
REFS, KIND = {}, {}
for f in order:
    t = strip(SRC[f]); hs = list(HEAD.finditer(t))
    for h, nx in zip(hs, hs[1:] + [None]):
        body = t[h.end():nx.start() if nx else len(t)]
        REFS.setdefault(h.group(2), set()).update(re.findall(r"\w+", body)); KIND[h.group(2)] = h.group(1)
def resting_on(lemma):
    out, todo = {lemma}, [lemma]
    while todo:
        x = todo.pop()
        for y, r in REFS.items():
            if x in r and y not in out: out.add(y); todo.append(y)
    return sorted(y for y in out if KIND.get(y) == 'Theorem')

OPS = [(r'<=\?', '<?'), (r'<\?', '<=?'), (r'&&', '||'), (r'\|\|', '&&'), (r'\btrue\b', 'false'), (r'\bfalse\b', 'true'),
       (r'\bnegb \(', '('), (r' \+ ', ' - '), (r' - ', ' + '), (r'=\?', '<=?'), (r'(?<![\w.])(\d+)(?![\w.])', None), (r'0x([0-9A-Fa-f]+)', None),
       (r'\bif ', 'IF'), (r'\bBig\b', 'Little'), (r'\bLittle\b', 'Big'), (r'\bmin\b', 'max'), (r'\bmax\b', 'min'),
       (r'\bfirstn\b', 'skipn'), (r'\bskipn\b', 'firstn'), (r' \* ', ' + '), (r'\bK8\b', 'K16'), (r'\bStandardOutput\b', 'StandardError')]
def mutations(f):
    t = SRC[f]; s = strip(t)
    starts = list(re.finditer(r'^(?:Definition|Fixpoint|with|Inductive|Record|Example|Lemma|Theorem|Section|End|Notation|Open|Import|From|Close|Scheme|Arguments)\b(?: (\w+))?', s, re.M))
    for a, b in zip(starts, starts[1:] + [None]):
        if a.group(0).split()[0] not in ('Definition', 'Fixpoint', 'with'): continue
        lo, hi = a.start(), b.start() if b else len(s)
        k = s.find(':=', lo, hi)
        if k < 0: continue
        res = []
        for pat, rep in OPS:
            for m in re.finditer(pat, s[k:hi]):
                x, y = k + m.start(), k + m.end()
                if pat == '=\\?' and s[x-1] in '<>': continue
                old = t[x:y]
                if rep is None:
                    if s[x-1:x] == '%' : continue
                    new = ('0x%X' % (int(m.group(1), 16) ^ 1)) if old.startswith('0x') else str(int(old) + 1)
                elif rep == 'IF': new = 'if negb @'
                else: new = rep
                if new == 'if negb @':
                    e = s.find(' then', y, hi)
                    if e < 0 or ' if ' in s[y:e]: continue
                    y = e; new = 'if negb (' + t[x+3:e] + ')'; old = t[x:e]
                ls = t.rfind('\n', 0, x) + 1; le = t.find('\n', x); le = len(t) if le < 0 else le
                res.append((x, y, new, '%s becomes %s in: %s' % (old.strip(), new.strip(), t[ls:le].strip()[:150])))
        def also(x, y, new):
            ls = t.rfind('\n', 0, x) + 1; le = t.find('\n', x); le = len(t) if le < 0 else le
            if new != t[x:y]: res.append((x, y, new, '%s becomes %s in: %s' % (' '.join(t[x:y].split()), ' '.join(new.split()), t[ls:le].strip()[:150])))
        body = s[k:hi]
        # a step left out
        for m in re.finditer(r"bind \(([^()]*(?:\((?:[^()]|\([^()]*\))*\)[^()]*)*?) ([\w']+)\) \(fun ([\w']+) =>", body):
            also(k + m.start(), k + m.end(), 'bind (Ok %s) (fun %s =>' % (m.group(2), m.group(3)))
        # arguments exchanged
        for m in re.finditer(r"(?<=[\w')] )([a-z][\w']*) ([a-z][\w']*)(?=[ );])", body):
            if not {m.group(1), m.group(2)} & {'in', 'with', 'then', 'else', 'if', 'match', 'let', 'end', 'fun', 'fix', 'as', 'return', 'struct'}:
                also(k + m.start(), k + m.end(), m.group(2) + ' ' + m.group(1))
        # fields exchanged
        for m in re.finditer(r":= ([^;|{}]+); (\w+) := ([^;|{}]+)(?=;| \|\})", body):
            also(k + m.start(), k + m.end(), ':= %s; %s := %s' % (m.group(3), m.group(2), m.group(1)))
        # branches exchanged
        for m in re.finditer(r"(\| [^|=\n]+ =>) ([^|\n]+)(\s+)(\| [^|=\n]+ =>) ([^|\n]+)(?=\s+(?:\||end))", body):
            also(k + m.start(), k + m.end(), '%s %s%s%s %s' % (m.group(1), m.group(5), m.group(3), m.group(4), m.group(2)))
        # the state before instead of the state after
        for m in re.finditer(r"\b([a-z]\w*)'(?=[ );,])", body): also(k + m.start(), k + m.end(), m.group(1))
        yield a.group(1), res

def compile_(d, f, timeout):
    vo = os.path.join(d, f + 'o')
    if os.path.lexists(vo): os.unlink(vo)
    try:
        p = subprocess.run(['coqc', '-time', '-Q', '.', 'Verif', f], cwd=d, stdout=subprocess.PIPE, stderr=subprocess.STDOUT, timeout=timeout)
        out = p.stdout.decode(errors='replace'); rc = p.returncode
    except subprocess.TimeoutExpired as e:
        out = (e.stdout or b'').decode(errors='replace'); rc = -1
    if rc == 0: return None
    stopped = rc < 0 or rc > 1 or not re.search(r'^Error', out, re.M) or re.search(r'Stack overflow|Out of memory', out)
    offs = [int(m.group(1)) for m in re.finditer(r'^Chars \d+ - (\d+) ', out, re.M)]
    off = max(offs) if offs else 0
    b = open(os.path.join(d, f), 'rb').read(); i = len(b[:off].decode(errors='ignore'))
    s = strip(b.decode())
    while i < len(s) and s[i].isspace(): i += 1
    hs = [m for m in HEAD.finditer(s) if m.start() <= i]
    return (hs[-1].group(2) if hs else '?', out[-300:], bool(stopped))

def run(job):
    f, name, (x, y, new, edit) = job
    d = tempfile.mkdtemp(prefix='sweep_', dir='/tmp')
    try:
        for g in order:
            os.symlink(os.path.join(os.path.abspath(TH), g), os.path.join(d, g)); os.symlink(os.path.join(os.path.abspath(TH), g + 'o'), os.path.join(d, g + 'o'))
        os.unlink(os.path.join(d, f)); t = SRC[f]; open(os.path.join(d, f), 'w').write(t[:x] + new + t[y:])
        for g in affected(f):
            r = compile_(d, g, int(os.environ.get('MUTATE_LIMIT', '1500')))
            if r and g == f: return None
            if r: return (g, r[0], r[2])
        return 'SURVIVES'
    finally: shutil.rmtree(d, ignore_errors=True)

def main():
    random.seed(int(opt('--seed', '1'))); per = int(opt('--per', '2')); rx = re.compile(opt('--files', '.'))
    jobs = []
    seen = set()
    if os.path.exists(sys.argv[1]): seen = {(json.loads(l)['file'], json.loads(l)['edit']) for l in open(sys.argv[1])}
    if '--skip-logged' in sys.argv:
        logged = {(json.loads(l)['file'].split('/')[-1], json.loads(l)['definition']) for l in open(opt('--skip-logged', ''))}
    else: logged = set()
    for f in order:
        if 'Model' not in f or not rx.search(f): continue
        for name, res in mutations(f):
            if (f, name) in logged: continue
            random.shuffle(res)
            if res: jobs.append((f, name, res))
    random.shuffle(jobs); print(len(jobs), 'definitions', flush=True)
    def one(j):
        f, name, res = j; n = 0
        for m in res[:25]:
            if n == per: break
            if (f, m[3]) in seen: n += 1; continue
            r = run((f, name, m))
            if r is None: continue
            n += 1; e = dict(file=f, definition=name, edit=m[3])
            if r == 'SURVIVES': e['result'] = 'SURVIVES'
            elif r[2]: e.update(result='NOT DECIDED', at=r[0] + ': ' + r[1])
            else: e.update(result='detected', at=r[0] + ': ' + r[1], theorems=resting_on(r[1]))
            with open(sys.argv[1], 'a') as o: o.write(json.dumps(e, ensure_ascii=False) + '\n')
    with ThreadPoolExecutor(int(opt('--jobs', '1'))) as ex: list(ex.map(one, jobs))
main()
