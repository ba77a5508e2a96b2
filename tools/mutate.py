#!/usr/bin/env python3
"""Mutation testing.  Apply one edit to a scratch copy of the development and rebuild.
Whenever a proof fails, admit that lemma in the scratch copy and go on, so that in the
end Print Assumptions tells which property theorems rest on a lemma that no longer proves.

usage: mutate.py <mutants.py> [id ...]

mutants.py defines M = [(id, file, old, new, definition, claim), ...].
Results are appended to /tmp/mut.jsonl."""
import json, os, re, shutil, subprocess, sys, time

SRC = os.environ.get('MUTSRC', '/verif/rocq')  # a built copy
TMP = os.environ.get('MUTTMP', '/tmp/mut')
USING = os.environ.get('MUTUSING', '/tmp/using.json')
# seconds for each command, if set
FLAGS = " COQEXTRAFLAGS='-set \"Default Timeout=%s\"'" % os.environ['MUTLIMIT'] if 'MUTLIMIT' in os.environ else ''
HEAD = re.compile(r'\s*(?:Lemma|Theorem|Corollary|Example|Proposition)\s+(\w+)')

def sh(cmd, cwd, t=1500):
    return subprocess.run('ulimit -v 9000000; timeout %d %s 2>&1' % (t, cmd), shell=True, cwd=cwd,
                          stdout=subprocess.PIPE, text=True).stdout

def files():
    return [l.strip() for l in open(SRC + '/_CoqProject') if l.strip().endswith('.v')]

def make_using():
    """The section variables each proof uses (an admitted proof has to name them)."""
    d = '/tmp/su'
    shutil.rmtree(d, ignore_errors=True)
    subprocess.run(['cp', '-a', SRC, d], check=True)
    res = {}
    for f in files():
        o = sh("coqc -set 'Suggest Proof Using' -Q theories Verif " + f, d)
        res[os.path.basename(f)[:-2]] = dict(
            (m.group(1), ' '.join(m.group(2).split()))
            for m in re.finditer(r'The proof of (\w+) should start with one of the following commands:\s*Proof using ([^.]*)\.', o))
    json.dump(res, open(USING, 'w'))

def admit(path, line, using):
    """Admit the lemma around the line; gives its name or None."""
    ls = open(path).read().split('\n')
    k = line - 1
    while k >= 0 and not HEAD.match(ls[k]):
        if re.match(r'\s*(Definition|Fixpoint|Let|Instance|Ltac)\b', ls[k]):
            return None
        k -= 1
    if k < 0:
        return None
    name = HEAD.match(ls[k]).group(1)
    j = k
    while not re.search(r'\bProof\b', ls[j]):
        j += 1
    e = j
    if 'Admitted' in ls[j]:
        return None
    while not re.search(r'\b(Qed|Defined)\.', ls[e]):
        e += 1
    if line - 1 > e:
        return None
    pre = ls[j][:re.search(r'\bProof\b', ls[j]).start()]
    u = using.get(name)
    ls[j:e + 1] = [pre + ('Proof. ' if u is None else 'Proof using %s. ' % u) + 'Admitted.'] + [''] * (e - j)
    open(path, 'w').write('\n'.join(ls))
    return name

def run(mid, f, old, new, defn, claim, using, log):
    shutil.rmtree(TMP, ignore_errors=True)
    start = time.time()
    subprocess.run(['cp', '-a', SRC, TMP], check=True)
    p = os.path.join(TMP, 'theories', f)
    s = open(p).read()
    if s.count(old) != 1:
        print(mid, 'BAD PATTERN', s.count(old), flush=True)
        return
    open(p, 'w').write(s.replace(old, new))
    admitted, stuck = [], []
    for _ in range(150):
        o = sh('make -k -j3' + FLAGS, TMP)
        ms = [m for m in re.finditer(r'File "\./theories/(\w+)\.v", line (\d+)', o) if 'Error' in o[m.end():m.end() + 300]]
        if not ms:
            break
        again = False
        for m in ms:
            g = m.group(1)
            n = admit(os.path.join(TMP, 'theories', g + '.v'), int(m.group(2)), using.get(g, {}))
            if n is None:
                stuck.append('%s:%s' % (g, m.group(2)))
            else:
                admitted.append('%s.%s' % (g, n))
                again = True
        if not again:
            break
    broken = set()
    for g in files():
        b = os.path.basename(g)
        if not b.startswith('Prop'):
            continue
        vo = os.path.join(TMP, g[:-2] + '.vo')
        if not stuck and os.path.exists(vo) and os.path.getmtime(vo) < start:
            continue  # make had no reason to build it again
        names = re.findall(r'^Print Assumptions (\w+)', open(os.path.join(TMP, g)).read(), re.M)
        o = sh('coqc -Q theories Verif ' + g, TMP)
        parts = re.split(r'(?m)^(?=Closed under|Axioms:)', o)[1:]
        for i, n in enumerate(names):
            if i >= len(parts) or parts[i].startswith('Axioms'):
                broken.add(n)
    broken = sorted(broken)
    print(mid, 'killed' if broken else 'SURVIVED', len(broken), 'theorems; lemmas', admitted, 'stuck', stuck, flush=True)
    log.write(json.dumps({'id': mid, 'definition': defn, 'edit': '%s -> %s' % (' '.join(old.split()), ' '.join(new.split())),
                          'claim': claim, 'failed': broken, 'lemmas_failed': admitted, 'stuck': stuck, 'tightened': []}) + '\n')
    log.flush()

if __name__ == '__main__':
    ns = {}
    exec(open(sys.argv[1]).read(), ns)
    only = set(sys.argv[2:])
    if not os.path.exists(USING):
        make_using()
    using = json.load(open(USING))
    log = open('/tmp/mut.jsonl', 'a')
    for m in ns['M']:
        if not only or m[0] in only:
            run(*m, using, log)
