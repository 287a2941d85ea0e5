#!/usr/bin/env python3
"""Mutation tests of the theorems.  usage: mutate.py mutants.json  (scratch copy in /tmp/scratch)
Each mutant: {"file","definition","old","new","edit","claim"}; results are appended to the file
given as second argument (default /tmp/mut/results.jsonl)."""
import json, subprocess, sys, os, re, shutil
src = os.environ.get('SNAP', '/tmp/snap'); sc = os.environ.get('SCRATCH', '/tmp/scratch')
def sh(c, **k): return subprocess.run(c, shell=True, capture_output=True, text=True, **k)
def enclosing(path, line):
    name = '?'
    for i, l in enumerate(open(path), 1):
        if i > line: break
        m = re.match(r'\s*(?:Local\s+)?(?:Theorem|Lemma|Corollary|Example|Fact|Definition|Fixpoint|Remark)\s+(\w+)', l)
        if m: name = m.group(1)
    return name
def main():
    muts = json.load(open(sys.argv[1])); out = sys.argv[2] if len(sys.argv) > 2 else '/tmp/mut/results.jsonl'
    j = os.environ.get('J', '2'); flag = os.environ.get('K', '')
    for m in muts:
        shutil.rmtree(sc, ignore_errors=True)
        sh(f'cp -a {src} {sc}')
        p = f"{sc}/theories/{m['file']}"
        t = open(p).read()
        if t.count(m['old']) < 1:
            r = 'OLD NOT FOUND'; failed = []; blocked = []
        else:
            open(p, 'w').write(t.replace(m['old'], m['new'], 1))
            sh('coq_makefile -f _CoqProject -o Makefile', cwd=sc)
            o = sh(f'timeout 1500 make {flag} -j{j} {m.get("targets",os.environ.get("TARGETS",""))} 2>&1', cwd=sc).stdout
            failed = []
            for f, l in re.findall(r'File "\./theories/([^"]+)", line (\d+)[^\n]*\n(?:[^\n]*\n)?Error', o):
                failed.append(f"{f}:{enclosing(sc+'/theories/'+f, int(l))}")
            if not failed:
                for f, l, b in re.findall(r'File "\./theories/([^"]+)", line (\d+)([^F]*)', o):
                    if 'Error' in b: failed.append(f"{f}:{enclosing(sc+'/theories/'+f, int(l))}")
            failed = sorted(set(failed))
            r = 'killed' if failed else ('SURVIVED' if 'Error' not in o else 'ERR? ' + o[-400:])
            blocked = []
        rec = dict(definition=m['definition'], edit=m['edit'], claim=m['claim'], result=r, theorems_failed=failed)
        with open(out, 'a') as fo: fo.write(json.dumps(rec) + '\n')
        print(json.dumps(rec), flush=True)
main()
