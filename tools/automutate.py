#!/usr/bin/env python3
"""Small edits of the model's definitions, made by rule; lists those after which everything still compiles.
usage: automutate.py COMPILED_COPY_OF_ROCQ OUT.jsonl PER_DEFINITION SEED FILE...   (files without .v)"""
import json, os, random, re, shutil, subprocess, sys

src, out, per, seed, files = sys.argv[1], sys.argv[2], int(sys.argv[3]), int(sys.argv[4]), sys.argv[5:]
random.seed(seed)

RULES = [
    (r'\btrue\b', 'false'), (r'\bfalse\b', 'true'),
    (r'&&', '||'), (r'\|\|', '&&'), (r'\bnegb\b', 'id'),
    (r'<\?', '<=?'), (r'<=\?', '<?'), (r'\bErr\b', 'Panic'), (r'\bPanic\b', 'Err'),
    (r'\bmin', 'max'), (r'\bmax', 'min'), (r'Min', 'Max'), (r'Max', 'Min'),
    (r'\bfst\b', 'snd'), (r'\bsnd\b', 'fst'),
]

def strip_comments(text):
    res, depth, i = [], 0, 0
    while i < len(text):
        if text.startswith('(*', i): depth += 1; res.append('  '); i += 2; continue
        if text.startswith('*)', i) and depth: depth -= 1; res.append('  '); i += 2; continue
        res.append(text[i] if not depth or text[i] == '\n' else ' '); i += 1
    return ''.join(res)

def definitions(text):
    clean = strip_comments(text)
    for m in re.finditer(r'^ *(?:#\[[^\]]*\] *)?(Definition|Fixpoint|Notation|Instance) (?:.*\n)*?', clean, re.M):
        end = re.search(r'\.\s*\n', clean[m.start():])
        if end:
            name = re.match(r' *(?:#\[[^\]]*\] *)?\w+ +(\S+)', clean[m.start():]).group(1)
            yield name, m.start(), m.start() + end.end(), clean[m.start():m.start() + end.end()]

def mutants(body):
    start = body.find(':=')
    if start < 0: return
    for pat, rep in RULES:
        for m in re.finditer(pat, body[start:]):
            yield start + m.start(), start + m.end(), rep
    for m in re.finditer(r'"([^"]*)"', body[start:]):
        yield start + m.start(), start + m.end(), '"%sx"' % m.group(1)
    for m in re.finditer(r'\b(\d+)\b', body[start:]):
        yield start + m.start(), start + m.end(), str(int(m.group(1)) + 1)
    for m in re.finditer(r'\bif (.*?) then', body[start:], re.S):
        yield start + m.start(1), start + m.end(1), 'negb (%s)' % m.group(1)
    for m in re.finditer(r'\bSome [a-z]\w*\b', body[start:]):
        yield start + m.start(), start + m.end(), 'None'
    for m in re.finditer(r'; ([^;\[\]]+)(?=[;\]])', body[start:]):
        yield start + m.start(), start + m.end(), ''
    for m in re.finditer(r'(\w+) \+\+ (\w+)', body[start:]):
        yield start + m.start(), start + m.end(), '%s ++ %s' % (m.group(2), m.group(1))
    for m in re.finditer(r'(?<=[\( ])([a-z]\w*) ([a-z]\w*) ([a-z]\w*)(?=[\);])', body[start:]):
        yield start + m.start(), start + m.end(), '%s %s %s' % (m.group(1), m.group(3), m.group(2))

jobs = []
for f in files:
    text = open(f'{src}/theories/{f}.v').read()
    for name, a, b, body in definitions(text):
        ms = list(mutants(body))
        random.shuffle(ms)
        jobs.append([(f, name, a + x, a + y, rep) for x, y, rep in ms])
print(len(jobs), 'definitions', sum(map(len, jobs)), 'edits', flush=True)

work = out + '.work'
def attempt(f, name, x, y, rep):
    text = open(f'{src}/theories/{f}.v').read()
    new = text[:x] + rep + text[y:]
    shutil.rmtree(work, ignore_errors=True)
    shutil.copytree(src, work, copy_function=shutil.copy2)
    open(f'{work}/theories/{f}.v', 'w').write(new)
    line = new[:x].count('\n') + 1
    r = subprocess.run(f'cd {work} && ulimit -v 6000000 && timeout 1500 make -j2', shell=True, capture_output=True, text=True, executable='/bin/bash')
    r.stdout += r.stderr
    m = re.search(r'File "\./theories/(\w+)\.v", line (\d+)[^\n]*\n(?:Error|In environment)', r.stdout)
    at = (m.group(1), int(m.group(2))) if m else None
    ctx = new[new.rfind('\n', 0, x) + 1:new.find('\n', x)]
    return dict(file=f, definition=name, line=line, old=text[x:y], new=rep, context=ctx.strip()[:160], failed=at, rc=r.returncode)

# a run that was stopped goes on where it was
before = [json.loads(l) for l in open(out)] if os.path.exists(out) else []
with open(out, 'a') as o:
    for ms in jobs:
        done = 0
        for j in ms:
            if done >= per: break
            if before:
                if not before.pop(0).get('ill_typed'): done += 1
                continue
            r = attempt(*j)
            if r['failed'] and r['failed'][0] == r['file'] and abs(r['failed'][1] - r['line']) <= 40 and r['failed'][1] >= 1:
                # most likely ill-typed: not counted
                body_end = r['line'] + 40
                r['ill_typed'] = True
            else:
                done += 1
            o.write(json.dumps(r) + '\n'); o.flush()
            if r['rc'] == 0: print('SURVIVES', r, flush=True)
shutil.rmtree(work, ignore_errors=True)
