"""Like mutate.py, for a chain of files that nothing else depends on.

usage: mutate_chain.py muts.json A.v B.v C.v ...   (the files to compile again, in order)"""
import json, os, re, subprocess, sys
root = os.path.join(os.path.dirname(os.path.abspath(__file__)), '..')
scratch = '/tmp/mutchain'
muts, chain = json.load(open(sys.argv[1])), sys.argv[2:]
subprocess.run(f'rm -rf {scratch} && cp -a {root}/rocq {scratch}', shell=True)
def lemma_at(path, line):
    last = None
    for i, l in enumerate(open(path), 1):
        m = re.match(r'\s*(?:Theorem|Lemma|Example|Corollary|Definition|Fixpoint|Remark|Fact)\s+(\S+)', l)
        if m and i <= line: last = m.group(1)
    return last
for m in muts:
    f = os.path.join(scratch, 'theories', m['file'])
    src = open(f).read()
    if src.count(m['old']) < 1:
        print('NOT FOUND', m['file'], m['old'][:60]); continue
    parts = src.split(m['old']); idx = m.get('nth', 0)
    open(f, 'w').write(m['old'].join(parts[:idx+1]) + m['new'] + m['old'].join(parts[idx+1:]))
    fail = None
    for v in chain:
        r = subprocess.run(f'ulimit -v 5000000; timeout 400 coqc -Q . Verif {v} 2>&1', shell=True, cwd=scratch + '/theories', capture_output=True, text=True)
        if r.returncode:
            mm = re.search(r'File "\./(\w+\.v)", line (\d+)', r.stdout)
            fail = (v, lemma_at(os.path.join(scratch, 'theories', v), int(mm.group(2))) if mm else 'no proof within the limits', r.stdout[-150:].replace('\n', ' '))
            break
    broken = fail and fail[0] == m['file']
    print('==', m['def'], '|', m['edit'], '\n   claim:', m['claim'], '\n   fails:', fail, '\n   ***MODEL BROKEN***' if broken else ('' if fail else '\n   ***SURVIVED***')); sys.stdout.flush()
    if fail and not broken:
        with open(os.path.join(root, 'seeded/LOG.jsonl'), 'a') as lg:
            lg.write(json.dumps(dict(definition=m['file'] + ': ' + m['def'], edit=m['edit'], claim_broken=m['claim'],
                 theorems_failed=[f"{fail[0]}: {fail[1]}"], theorems_tightened=m.get('tightened', []))) + '\n')
    open(f, 'w').write(src)
