"""Applies edits to a scratch copy of the model and reports which proofs break.

usage: mutate.py muts.json   (list of {file, def, old, new, edit, claim})
Appends one line per attempt to seeded/LOG.jsonl unless --dry is given."""
import json, os, re, shutil, subprocess, sys
root = os.path.join(os.path.dirname(os.path.abspath(__file__)), '..')
scratch = '/tmp/mutscratch'
muts = json.load(open(sys.argv[1]))
dry = '--dry' in sys.argv
keep = '' if '--first' in sys.argv else '-k '   # --first: stop at the first proof that breaks
if not os.path.exists(scratch):
    shutil.copytree(os.path.join(root, 'rocq'), scratch)
subprocess.run(['rsync', '-a', '--delete', os.path.join(root, 'rocq') + '/', scratch + '/']) if shutil.which('rsync') else subprocess.run(f'rm -rf {scratch} && cp -a {root}/rocq {scratch}', shell=True)
subprocess.run('coq_makefile -f _CoqProject -o Makefile >/dev/null && make -j4 >/dev/null 2>&1', shell=True, cwd=scratch)
pristine = '/tmp/mutpristine'
subprocess.run(f'rm -rf {pristine} && cp -a {scratch} {pristine}', shell=True)
def lemma_at(path, line):
    last = None
    for i, l in enumerate(open(path), 1):
        m = re.match(r'\s*(?:Theorem|Lemma|Example|Corollary|Definition|Fixpoint|Remark|Fact)\s+(\S+)', l)
        if m and i <= line: last = m.group(1)
    return last
for m in muts:
    f = os.path.join(scratch, 'theories', m['file'])
    src = open(f).read()
    if src.count(m['old']) < 1:
        print('NOT FOUND', m['file'], m['old'][:60]); continue
    idx = m.get('nth', 0)
    parts = src.split(m['old'])
    open(f, 'w').write(m['old'].join(parts[:idx+1]) + m['new'] + m['old'].join(parts[idx+1:]))
    r = subprocess.run(f'make {keep}-j3 COQC="timeout 500 coqc" 2>&1', shell=True, cwd=scratch, capture_output=True, text=True)
    fails = []
    for mm in re.finditer(r'File "\./(theories/\w+\.v)", line (\d+).*?\n(Error[^\n]*\n[^\n]*)', r.stdout):
        fails.append((mm.group(1), lemma_at(os.path.join(scratch, mm.group(1)), int(mm.group(2))), mm.group(3).replace('\n',' ')[:100]))
    for mm in re.finditer(r'theories/(\w+)\.vo\] Error 124', r.stdout):
        fails.append(('theories/' + mm.group(1) + '.v', 'no proof within 500 s', 'timeout'))
    model_fail = any(x[0].endswith('/' + m['file']) for x in fails)
    built = lambda v: os.path.exists(os.path.join(scratch, 'theories', v[:-2] + '.vo'))
    notbuilt = []
    for v in sorted(os.listdir(os.path.join(scratch, 'theories'))):
        if keep and v.startswith('Props') and v.endswith('.v'):
            q = subprocess.run(['make', '-q', f'theories/{v}o'], cwd=scratch, capture_output=True)
            if q.returncode != 0 or not built(v):
                notbuilt.append(v)
    print('==', m['def'], '|', m['edit'], '\n   claim:', m['claim'], '\n   fails:', fails, '\n   props not built:', notbuilt, '\n   ***MODEL BROKEN***' if model_fail else ('' if fails else '\n   ***SURVIVED***'))
    sys.stdout.flush()
    if not dry and fails and not model_fail:
        with open(os.path.join(root, 'seeded/LOG.jsonl'), 'a') as lg:
            lg.write(json.dumps(dict(definition=m['file'] + ': ' + m['def'], edit=m['edit'], claim_broken=m['claim'],
                 theorems_failed=[f"{a.split('/')[1]}: {b}" for a, b, _ in fails] + [f'not built: {x}' for x in notbuilt],
                 theorems_tightened=m.get('tightened', []))) + '\n')
    subprocess.run(f'rm -rf {scratch} && cp -a {pristine} {scratch}', shell=True)
