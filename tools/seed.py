#!/usr/bin/env python3
"""Try wrong programs against the theorems.

usage: seed.py base            build a scratch copy of rocq/ in $SEED_DIR/base
       seed.py run FILE.jsonl  try each edit, append to seeded/LOG.jsonl

An edit is {"file", "definition", "old", "new", "edit", "claim"}; "old" must
occur exactly once (or give "all": true).  With "props": [...] only these
modules of Props are built and looked at.  In the scratch copy only, a proof
that fails is replaced by a hole and the build goes on, so that Print
Assumptions shows every property theorem that depends on a failed proof."""
import json, os, re, shutil, subprocess, sys, glob
root = os.path.dirname(os.path.dirname(os.path.abspath(__file__)))
D = os.environ.get('SEED_DIR', '/tmp/seed')
J = os.environ.get('SEED_J', '3')
T = os.environ.get('SEED_T', '400')
HEAD = re.compile(r'^\s*(?:Local |Global |#\[[^]]*\]\s*)?(Lemma|Theorem|Example|Corollary|Remark|Fact|Definition|Fixpoint|Instance)\s+(\w+)', re.M)

def make(d, k=True, extra='', targets=''):
    p = subprocess.run(f'make {"-k" if k else ""} -j{J} {targets} COQC="timeout {T} coqc" COQEXTRAFLAGS=\'{extra}\'',
                       shell=True, cwd=d, stdout=subprocess.PIPE, stderr=subprocess.STDOUT, text=True)
    return p.returncode, p.stdout

def base():
    d = D + '/base'
    shutil.rmtree(d, ignore_errors=True); os.makedirs(D, exist_ok=True)
    subprocess.run(['cp', '-r', root + '/rocq', d], check=True)
    subprocess.run('find . -name "*.vo*" -o -name "*.glob" -o -name ".*.aux" | xargs rm -f', shell=True, cwd=d)
    with open(d + '/theories/Model/Base.v', 'a') as f:
        f.write('\nAxiom mutant_hole : forall A : Type, A.\n')
    subprocess.run('coq_makefile -f _CoqProject -o Makefile', shell=True, cwd=d, check=True, stdout=subprocess.DEVNULL)
    rc, out = make(d, extra='-set "Suggest Proof Using"')
    assert rc == 0, out[-3000:]
    using = {}
    for m in re.finditer(r'The proof of (\S+)\s+should start with one of the following\s+commands:\s*\nProof using ([^\n]*)\.', out):
        using[m.group(1)] = m.group(2).strip()
    json.dump(using, open(D + '/using.json', 'w'))
    print(len(using), 'proofs')

def hole(d, f, line, using, failed, guess=None):
    """Replace the proof of the lemma around this line.  False if none."""
    p = os.path.join(d, f); s = open(p).read()
    off = sum(len(x) + 1 for x in s.split('\n')[:line - 1])
    eol = s.find('\n', off); eol = len(s) if eol < 0 else eol
    hs = [m for m in HEAD.finditer(s) if m.start() <= eol]
    if not hs: return False
    h = hs[-1]
    end = re.compile(r'\b(Qed|Defined)\.').search(s, h.end())
    prf = re.compile(r'\bProof\b[^.]*\.').search(s, h.end())
    if not end or not prf or prf.start() > end.start() or end.end() < off: return False
    name = h.group(2)
    if name in [x[1] for x in failed]: return False
    u = using.get(name, '')
    # keep line count
    body = s[prf.start():end.end()]
    new = f'Proof using {u}. exact (mutant_hole _). Qed.' + '\n' * body.count('\n')
    open(p, 'w').write(s[:prf.start()] + new + s[end.end():])
    failed.append((os.path.basename(f)[:-2], name, h.group(1)))
    return True

def stuck(d, f):
    """The line of the sentence at which coqc does not come to an end."""
    o = subprocess.run(['timeout', T, 'coqc', '-time', '-Q', 'theories', 'Verif', f], cwd=d, stdout=subprocess.PIPE,
                       stderr=subprocess.STDOUT, text=True).stdout
    at = max([int(x) for x in re.findall(r'^Chars \d+ - (\d+) ', o, re.M)] + [0])
    s = open(os.path.join(d, f), 'rb').read()
    while at < len(s) and s[at:at + 1].isspace(): at += 1
    return s[:at].count(b'\n') + 1

def one(m, using):
    d = D + '/mut'
    shutil.rmtree(d, ignore_errors=True)
    subprocess.run(['cp', '-a', D + '/base', d], check=True)
    p = d + '/theories/' + m['file']; s = open(p).read()
    n = s.count(m['old'])
    if n == 0 or (n > 1 and not m.get('all')):
        return {'error': f'old occurs {n} times'}
    open(p, 'w').write(s.replace(m['old'], m['new']))
    failed, broken, prev = [], [], None
    only = m.get('props')
    targets = ' '.join(f'theories/Props/{x}.vo' for x in only) if only else ''
    for it in range(200):
        rc, out = make(d, targets=targets)
        if rc == 0: break
        errs = re.findall(r'File "\./(theories/\S+\.v)", line (\d+), characters [\d-]+:\nError', out)
        prog = False
        for f, l in dict(errs).items():
            if f in broken: continue
            if hole(d, f, int(l), using, failed): prog = True
            else: broken.append(f)
        for f in re.findall(r'(theories/\S+)\.vo\] Error 124', out):
            l = stuck(d, f + '.v')
            if f + '.v' not in broken and hole(d, f + '.v', l, using, failed): prog = True
            else: broken.append(f + '.v')
        if not prog: break
    res = []
    for f in sorted(glob.glob(d + '/theories/Props/*.v')):
        if only and os.path.basename(f)[:-2] not in only: continue
        vo = f + 'o'
        if os.path.exists(vo) and os.path.getmtime(vo) == os.path.getmtime(vo.replace(d, D + '/base')): continue
        names = re.findall(r'^Print Assumptions (\w+)\.', open(f).read(), re.M)
        o = subprocess.run(['timeout', T, 'coqc', '-Q', 'theories', 'Verif', f], cwd=d, stdout=subprocess.PIPE,
                           stderr=subprocess.STDOUT, text=True).stdout
        parts = re.findall(r'^(Closed under the global context|Axioms:)', o, re.M)
        res += [n for n, x in zip(names, parts) if x == 'Axioms:']
    return {'failed': res, 'failed_lemmas': [f'{a}.{b}' for a, b, c in failed if not a.endswith('Props')],
            'failed_examples': [b for a, b, c in failed if c == 'Example'], 'broken': broken}

def run(fn):
    using = json.load(open(D + '/using.json'))
    for l in open(fn):
        if not l.strip(): continue
        m = json.loads(l)
        r = one(m, using)
        e = {'file': m['file'], 'definition': m['definition'], 'edit': m['edit'], 'claim': m['claim'],
             'failed': r.get('failed', []), 'failed_lemmas': r.get('failed_lemmas', []),
             'failed_examples': r.get('failed_examples', []), 'tightened': m.get('tightened', [])}
        if r.get('broken'): e['broken'] = r['broken']
        if r.get('error'): print('SKIP', m['definition'], r['error'], flush=True); continue
        print(json.dumps(e), flush=True)
        with open(os.environ.get('SEED_LOG', root + '/seeded/LOG.jsonl'), 'a') as f: f.write(json.dumps(e) + '\n')

if sys.argv[1] == 'base': base()
else: run(sys.argv[2])
