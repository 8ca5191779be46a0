#!/usr/bin/env python3
"""Systematic mutation testing: tools/automutate.py File.v [File.v ...]
Every small edit of the operators below is applied at every place of the given model files, one at a time, in a copy outside
/verif; the copy is rebuilt until the first file that fails.  One JSON line per edit goes to $AMLOG (default /tmp/am/log.jsonl).
'invalid': the edited file itself does not type check.  'survived': everything still builds."""
import json, os, re, shutil, subprocess, sys
root = os.path.dirname(os.path.dirname(os.path.abspath(__file__)))
scratch = os.environ.get('MUTDIR', '/tmp/am/rocq')
logf = os.environ.get('AMLOG', '/tmp/am/log.jsonl')
jobs = os.environ.get('AMJOBS', '2')
OPS = [(r'&&', '||'), (r'\|\|', '&&'), (r'<=\?', '<?'), (r'<\?', '<=?'), (r'\bnegb\b', 'id'),
       (r'\btrue\b', 'false'), (r'\bfalse\b', 'true'), (r'(?<= )\+ 1\b', '+ 0'), (r'(?<= )- 1\b', '- 0'),
       (r'(?<= )\+ (?=[a-z(])', '- '), (r'(?<= )- (?=[a-z(])', '+ '), (r'\bS \(', '('), (r'\(S (\w+)\)', r'\1'),
       (r'\b0\b', '1'), (r'\b1\b', '2'), (r'\bif ([^;]*?) then', r'if negb (\1) then'),
       (r'^( *)(?!match|let|if|else|then|\||Definition|Fixpoint)([^\n]*[^;\n]) ;;$', r'\1ret tt ;;'),
       (r'\bNone\b(?! =>)', 'Some tt'), (r'S2 "([^"]+)"', r'S2 "\1?"'), (r'\bEThrow\b', 'EBool'), (r'\bEString\b', 'EBool'),
       (r'\bc_quote\b', 'c_escape'), (r'\bc_escape\b', 'c_quote'), (r'\bc_tl\b', 'c_tr'), (r'\bc_tr\b', 'c_tl'),
       (r'\bmsg_eof\b', 'msg_failed_check'), (r'\br_conv\b', 'r_nconv'), (r'\br_nconv\b', 'r_conv'),
       (r'\bfst\b', 'snd'), (r'\bsnd\b', 'fst'), (r'\bLF\b', 'CR'), (r'\bCR\b', 'LF'), (r'\bNUL\b', 'LF')]
def comments(s):
    spans, depth, i, start = [], 0, 0, 0
    while i < len(s):
        if s.startswith('(*', i):
            if depth == 0: start = i
            depth += 1; i += 2
        elif s.startswith('*)', i) and depth:
            depth -= 1; i += 2
            if depth == 0: spans.append((start, i))
        else: i += 1
    return spans
def defname(s, i):
    m = None
    for m in re.finditer(r'(?:Definition|Fixpoint|Record|Inductive)\s+(\w+)', s[:i]): pass
    return m.group(1) if m else '?'
done = set()
if os.path.exists(logf):
    for l in open(logf):
        d = json.loads(l); done.add((d['file'], d['at'], d['new']))
def lemma_at(path, line):
    name = '?'
    for i, l in enumerate(open(path), 1):
        if i > line: break
        m = re.match(r'\s*(?:Theorem|Lemma|Corollary|Example|Definition|Fixpoint)\s+(\w+)', l)
        if m: name = m.group(1)
    return name
for f in sys.argv[1:]:
    src = open(root + '/rocq/theories/' + f).read()
    spans = comments(src)
    muts = []
    for pat, new in OPS:
        for m in re.finditer(pat, src, re.M):
            if any(a <= m.start() < b for a, b in spans): continue
            line = src[src.rfind('\n', 0, m.start()) + 1: src.find('\n', m.start())]
            if re.match(r'\s*(Lemma|Theorem|Proof|Ltac|From|Notation|Arguments|Context|Section|End|UB|ub)', line): continue
            rep = m.expand(new)
            if rep == m.group(0): continue
            muts.append((m.start(), m.end(), rep))
    for a, b, rep in sorted(set(muts)):
        if (f, a, rep) in done: continue
        mutated = src[:a] + rep + src[b:]
        shutil.rmtree(scratch, ignore_errors=True); subprocess.run(['cp', '-a', root + '/rocq', scratch], check=True)
        p = scratch + '/theories/' + f
        open(p, 'w').write(mutated)
        rec = {'file': f, 'at': a, 'line': src.count('\n', 0, a) + 1, 'def': defname(src, a), 'old': src[a:b], 'new': rep,
               'context': src[src.rfind('\n', 0, a) + 1: src.find('\n', b)]}
        r0 = subprocess.run(['timeout', '60', 'coqc', '-Q', 'theories', 'Verif', 'theories/' + f], cwd=scratch, capture_output=True, text=True)
        if r0.returncode:
            rec['result'] = 'invalid'
        else:
            r = subprocess.run('ulimit -v 6000000; exec timeout 1500 make -j' + jobs, shell=True, cwd=scratch, capture_output=True, text=True)
            out = r.stdout + r.stderr
            rec['result'] = 'survived' if r.returncode == 0 else 'killed'
            rec['by'] = [g[:-2] + '.' + lemma_at(scratch + '/theories/' + g, int(l)) for g, l in
                         re.findall(r'File "\./theories/(\w+\.v)", line (\d+), characters [^\n]*\n(?:Error|Tactic)', out)]
            if r.returncode and not rec['by']: rec['tail'] = out[-300:]
        open(logf, 'a').write(json.dumps(rec) + '\n')
        if rec['result'] != 'invalid': print(rec['result'], f, rec['line'], rec['def'], repr(rec['old']), '->', repr(rec['new']), rec.get('by'), flush=True)
