#!/usr/bin/env python3
"""Seed wrong programs into a scratch copy of the model and see which theorems notice.

usage: mutate.py mutants.json [name ...]
Each mutant: {"name","file","def","old","new","claim"}.  The edit is applied to a scratch copy, everything that
depends on it is rebuilt, and each proof that no longer goes through is replaced by Admitted (in the scratch copy
only) so that the rest can still be checked.  A public theorem (P_*.v) "fails" if its own proof broke or if Print
Assumptions shows it resting on an admitted lemma.
"""
import json, os, re, shutil, subprocess, sys
SRC = os.environ.get('MUT_SRC', '/verif/rocq'); WORK = '/tmp/work/mut'
START = re.compile(r'^\s*(?:Local\s+|#\[[^\]]*\]\s*)?(Lemma|Theorem|Corollary|Example|Fact|Remark|Proposition|Instance|Definition|Fixpoint|Program Definition)\s+([A-Za-z0-9_\']+)', re.M)

def line_off(text, n):
    off = 0
    for _ in range(n - 1):
        off = text.index('\n', off) + 1
    return off

def admit(path, line):
    t = open(path).read(); off = line_off(t, line)
    eol = t.find('\n', off); eol = len(t) if eol < 0 else eol
    best = None
    for m in START.finditer(t, 0, eol):
        best = m
    if not best: return None
    name, kind = best.group(2), best.group(1)
    p = re.compile(r'\bProof\b[^.]*\.').search(t, best.start())
    q = re.compile(r'\b(Qed|Defined)\.').search(t, best.start())
    if not p or not q or p.start() > q.start(): return None
    nxt = START.search(t, best.end())
    if nxt and nxt.start() < p.start(): return None
    if off < p.start() and not (t[off:p.start()].count('Proof')): 
        # error in the statement itself
        if off + 0 < p.start() and eol < p.start(): return None
    t2 = t[:p.start()] + 'Admitted.' + t[p.start():q.end()].replace('\n', '\n').count('\n') * '\n' + t[q.end():]
    open(path, 'w').write(t2)
    return kind, name

def pub_closed(out):
    pass

def run(mu):
    d = WORK + '/' + mu['name']
    shutil.rmtree(d, ignore_errors=True); os.makedirs(WORK, exist_ok=True)
    subprocess.run(['cp', '-a', SRC, d], check=True)
    f = f"{d}/theories/{mu['file']}.v"
    t = open(f).read()
    if t.count(mu['old']) != 1:
        return {'error': f"old occurs {t.count(mu['old'])} times"}
    open(f, 'w').write(t.replace(mu['old'], mu['new']))
    subprocess.run(['coq_makefile', '-f', '_CoqProject', '-o', 'Makefile'], cwd=d, check=True, stdout=subprocess.DEVNULL)
    admitted = []; bad = set()
    for rnd in range(80):
        r = subprocess.run(['make', '-k', '-j' + os.environ.get('MUT_J', '3'), 'TIMECMD=timeout 300'], cwd=d, capture_output=True, text=True)
        errs = re.findall(r'File "\./?(theories/[A-Za-z0-9_]+\.v)", line (\d+), characters[^\n]*\n(?:Error|[^\n]*\n?Error)', r.stdout + r.stderr)
        errs = re.findall(r'File "\./?(theories/[A-Za-z0-9_]+\.v)", line (\d+), characters [0-9-]+:\n(?!Warning)', r.stdout + r.stderr)
        if r.returncode == 0: break
        prog = False
        for pth, ln in errs:
            if pth in bad: continue
            a = admit(f'{d}/{pth}', int(ln))
            if a: admitted.append((pth[9:-2], a[1])); prog = True
            else: bad.add(pth)
        if not prog:
            return {'error': 'stuck', 'admitted': admitted, 'out': (r.stdout + r.stderr)[-1500:]}
    failed = [n for (p, n) in admitted if p.startswith('P_')]
    names = {n for (_, n) in admitted}
    # theorems of P_ files resting on admitted lemmas
    if admitted:
        for pf in sorted(os.listdir(d + '/theories')):
            if not (pf.startswith('P_') and pf.endswith('.v')): continue
            pt = open(f'{d}/theories/{pf}').read()
            pa = re.findall(r'^Print Assumptions ([A-Za-z0-9_\']+)\.', pt, re.M)
            if not pa: continue
            s = '/tmp/work/mut/q_%s.v' % mu['name'].replace('-', '_')
            open(s, 'w').write(f'From Verif Require Import {pf[:-2]}.\n' + ''.join(f'Goal True. idtac "@@{n}". exact I. Qed.\nPrint Assumptions {n}.\n' for n in pa))
            o = subprocess.run(['coqc', '-Q', d + '/theories', 'Verif', s], capture_output=True, text=True).stdout
            for blk in o.split('@@')[1:]:
                n = blk.split('\n', 1)[0].strip()
                if 'Axioms' in blk and n not in failed: failed.append(n)
    shutil.rmtree(d, ignore_errors=True)
    return {'failed': failed, 'broken_lemmas': [f'{p}.{n}' for (p, n) in admitted]}

if __name__ == '__main__':
    ms = json.load(open(sys.argv[1])); only = set(sys.argv[2:])
    for mu in ms:
        if only and mu['name'] not in only: continue
        res = run(mu)
        if 'error' in res:
            print('ERROR', mu['name'], json.dumps(res)[:2500], flush=True); continue
        rec = {'mutant': mu['name'], 'definition': f"{mu['file']}.{mu['def']}", 'edit': f"{mu['old'].strip()}  ==>  {mu['new'].strip()}",
               'claim_broken': mu['claim'], 'theorems_failed': res['failed'], 'broken_lemmas': res['broken_lemmas'], 'theorems_tightened': []}
        print(('KILLED ' if res['failed'] else 'SURVIVED ') + mu['name'] + ' ' + str(res['failed']) + ' via ' + str(res['broken_lemmas'][:6]), flush=True)
        open('/tmp/work/mutlog.jsonl', 'a').write(json.dumps(rec) + '\n')
