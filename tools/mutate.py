#!/usr/bin/env python3
"""Mutation testing: tools/mutate.py mutations.json  (entries: file, definition, old, new, edit, claim).
For each entry the model is copied outside /verif, edited, rebuilt with make -k; one JSON line per attempt goes to
seeded/LOG.jsonl. Entries already in the log (same file, old, new) are skipped."""
import json, os, re, shutil, subprocess, sys
root = os.path.dirname(os.path.dirname(os.path.abspath(__file__)))
logf = root + '/seeded/LOG.jsonl'
muts = json.load(open(sys.argv[1]))
scratch = os.environ.get('MUTDIR', '/tmp/mut')
done = set()
if os.path.exists(logf):
    for l in open(logf):
        d = json.loads(l); done.add((d.get('file'), d.get('old'), d.get('new')))
def lemma_at(path, line):
    name = '?'
    for i, l in enumerate(open(path), 1):
        if i > line: break
        m = re.match(r'\s*(?:Theorem|Lemma|Corollary|Example|Definition|Fixpoint)\s+(\w+)', l)
        if m: name = m.group(1)
    return name
for mu in muts:
    if (mu['file'], mu['old'], mu['new']) in done: continue
    # fresh copy with compiled files and time stamps, so that only dependants are rebuilt
    shutil.rmtree(scratch, ignore_errors=True); subprocess.run(['cp', '-a', root + '/rocq', scratch], check=True)
    p = scratch + '/theories/' + mu['file']
    s = open(p).read()
    n = s.count(mu['old'])
    if n < 1 or (n > 1 and not mu.get('nth') and not mu.get('all')):
        print('BAD PATTERN', n, mu['definition'], mu['old']); continue
    if mu.get('all'): s = s.replace(mu['old'], mu['new'])
    else:
        k = mu.get('nth', 1); i = -1
        for _ in range(k): i = s.index(mu['old'], i + 1)
        s = s[:i] + mu['new'] + s[i + len(mu['old']):]
    open(p, 'w').write(s)
    r = subprocess.run(['timeout', '1500', 'make', '-k', '-j3'], cwd=scratch, capture_output=True, text=True)
    out = r.stdout + r.stderr
    failed, model_error = [], False
    for f, l in re.findall(r'File "\./theories/(\w+\.v)", line (\d+), characters [^\n]*\n(?:Error|Tactic)', out):
        nm = lemma_at(scratch + '/theories/' + f, int(l))
        failed.append(f[:-2] + '.' + nm)
        if f == mu['file']: model_error = True
    blocked = []
    for f in sorted(os.listdir(scratch + '/theories')):
        if re.match(r'Prop\w+\.v$', f):
            vo = scratch + '/theories/' + f + 'o'
            src = scratch + '/theories/' + f
            if subprocess.run(['make', '-q', 'theories/' + f + 'o'], cwd=scratch, capture_output=True).returncode != 0: blocked.append(f[:-2])
    rec = {'definition': mu['definition'], 'edit': mu['edit'], 'claim': mu['claim'], 'failed': failed,
           'unprovable_files': blocked, 'survived': r.returncode == 0, 'model_error': model_error,
           'tightened': mu.get('tightened', []), 'file': mu['file'], 'old': mu['old'], 'new': mu['new']}
    print(('SURVIVED ' if r.returncode == 0 else 'killed   ') + mu['definition'] + ': ' + mu['edit'], failed, blocked, 'MODEL-ERR' if model_error else '', flush=True)
    open(logf, 'a').write(json.dumps(rec) + '\n')
