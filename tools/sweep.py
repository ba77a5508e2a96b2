#!/usr/bin/env python3
"""Screen for unpinned definitions: apply small random edits to the models, rebuild, and
report the edits after which everything still proves.

usage: sweep.py <number> <seed>    (MUTSRC: a built copy of rocq/)
Results are appended to /tmp/sweep.jsonl."""
import json, os, random, re, shutil, subprocess, sys

SRC = os.environ.get('MUTSRC', '/verif/rocq')
TMP = '/tmp/swp'
MODELS = ['UnitModel', 'SplitModel', 'Doublets', 'Decorators', 'Ffi', 'LinkModel', 'Macros', 'Trees', 'Crash',
          'CrashWrites', 'SplitCrash', 'SourceList', 'Layout', 'Display', 'RandomTest', 'MemUse', 'CrashInside', 'CrashSteps', 'CrashLists', 'Accessors',
          'TreeProgs', 'AfterCrash', 'SplitLife', 'Sequences', 'SplitFree', 'Scars', 'SplitScars', 'SplitAfterCrash']
if os.environ.get('SWEEP'):
    MODELS = os.environ['SWEEP'].split()
SWAPS = [(r'<=\?', '<?'), (r'<\?', '<=?'), (r'&&', '||'), (r'\|\|', '&&'), (r'\bnegb \(', '('), (r'\bfst\b', 'snd'),
         (r'\bsnd\b', 'fst'), (r'\bnl\b', 'nr'), (r'\bnr\b', 'nl'), (r'\bl_source\b', 'l_target'), (r'\bl_target\b', 'l_source'),
         (r'\bContinue\b', 'Break'), (r'\bBreak\b', 'Continue'), (r'(?<![\w.])0(?![\w%])', '1'), (r'(?<![\w.])1(?![\w%])', '0'),
         (r'\+ 1\b', '+ 2'), (r'=\? (\w+)', r'=? \1 + 1'), (r'_src\b', '_tgt'), (r'_tgt\b', '_src'), (r'_source\b', '_target'),
         (r'_target\b', '_source'), (r'\bs t\b', 't s'), (r'\bold new\b', 'new old'), (r'\btrue\b', 'false'), (r'\bfalse\b', 'true'),
         (r'_is\b', '_it'), (r'_it\b', '_is'), (r'_es\b', '_et'), (r'_et\b', '_es'), (r'\bleft_', 'right_'), (r'\bright_', 'left_'),
         (r'let\* _ := [^;\n]*? in', ''), (r'\bLt\b', 'Gt'), (r'\bold_s\b', 's'), (r'\bold_t\b', 't'), (r'\bstart\b', 'iend'),
         (r'/\\ ', r'\/ '), (r'\bcadd\b', 'cadd0'), (r'\bcsub\b', 'csub0'), (r'\bstep\b', 'page'), (r'\+\+ \[', '++ []; ['),
         (r'\brev v2?\b', 'v2'), (r'\brev v\b', 'v'), (r'Some tt', 'None'), (r'Err e', 'Err OtherError')]

def defs(text):
    """(name, start, end) of every definition."""
    for m in re.finditer(r'^[ ]*(?:Definition|Fixpoint|Inductive) (\w+).*?\.[ ]*(?=\n)', text, re.S | re.M):
        yield m.group(1), m.start(), m.end()

def candidates():
    res = []
    for f in MODELS:
        p = '%s/theories/%s.v' % (SRC, f)
        text = open(p).read()
        for name, a, b in defs(text):
            if name.startswith('ex'):
                continue
            body = text[a:b]
            k0 = body.find(':=')
            if k0 < 0:
                continue
            for pat, rep in SWAPS:
                for m in re.finditer(pat, body):
                    if m.start() < k0:
                        continue
                    new = body[:m.start()] + m.expand(rep) + body[m.end():]
                    if new != body:
                        res.append((f, name, text[:a] + new + text[b:], body[max(0, m.start() - 40):m.end() + 40], m.group(0), m.expand(rep)))
    return res

def sh(cmd, t):
    return subprocess.run('ulimit -v 9000000; timeout %d %s 2>&1' % (t, cmd), shell=True, cwd=TMP, stdout=subprocess.PIPE, text=True).stdout

def main():
    n, seed = int(sys.argv[1]), int(sys.argv[2])
    rnd = random.Random(seed)
    cs = candidates()
    by = {}
    for c in cs:
        by.setdefault((c[0], c[1]), []).append(c)
    keys = sorted(by)
    rnd.shuffle(keys)
    todo = []
    while len(todo) < n:
        for k in keys:
            if by[k]:
                todo.append(by[k].pop(rnd.randrange(len(by[k]))))
        if not any(by.values()):
            break
    print(len(cs), 'candidates,', len(keys), 'definitions', flush=True)
    for j, (f, name, text, ctx, old, new) in enumerate(todo[:n]):
        shutil.rmtree(TMP, ignore_errors=True)
        subprocess.run(['cp', '-a', SRC, TMP], check=True)
        p = '%s/theories/%s.v' % (TMP, f)
        open(p, 'w').write(text)
        o = sh('make -j2', 1500)
        m = re.search(r'File "\./theories/(\w+)\.v", line (\d+)', o)
        if 'Error' in o and m:
            ls = open('%s/theories/%s.v' % (TMP, m.group(1))).read().split('\n')
            k = int(m.group(2)) - 1
            while k >= 0 and not re.match(r'\s*(Lemma|Theorem|Corollary|Definition|Fixpoint)\s+(\w+)', ls[k]):
                k -= 1
            w = ls[k].split() if k >= 0 else ['?', '?']
            verdict = 'invalid' if w[0] in ('Definition', 'Fixpoint') and m.group(1) == f else 'killed'
            at = '%s.%s' % (m.group(1), w[1] if len(w) > 1 else '?')
        else:
            verdict, at = 'SURVIVED' if 'Error' not in o else 'error', ''
        r = dict(file=f, definition=name, context=ctx, old=old, new=new, verdict=verdict, at=at)
        open('/tmp/sweep.jsonl', 'a').write(json.dumps(r) + '\n')
        print(j, verdict, f, name, repr(ctx), old, '->', new, at, flush=True)

main()
