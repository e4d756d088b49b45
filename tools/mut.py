#!/usr/bin/env python3
"""usage: mut.py spec.json ; spec = list of {file, def, old, new, claim, judge?}"""
import json,sys,os,subprocess,re,shutil
specs=json.load(open(sys.argv[1]))
out=[]
for i,s in enumerate(specs):
    d=os.environ.get('MUTDIR','/tmp/mut')
    shutil.rmtree(d,ignore_errors=True)
    subprocess.run(['cp','-a',os.environ.get('SNAP','/verif/rocq'),d],check=True)
    p=f"{d}/theories/{s['file']}"
    t=open(p).read()
    if t.count(s['old'])!=s.get('count',1):
        print(i,'BAD MATCH',t.count(s['old']),s['old']); continue
    t=t.replace(s['old'],s['new']); open(p,'w').write(t)
    r=subprocess.run('ulimit -v 6000000; timeout 900 make -k -j3 2>&1',shell=True,cwd=d,capture_output=True,text=True)
    fails=[]
    for m in re.finditer(r'File "\./theories/(\w+\.v)", line (\d+)[^\n]*\n(?!Warning)([^\n]*)',r.stdout):
        if 'Error' not in r.stdout[m.end()-60:m.end()+200]: continue
        f,l=m.group(1),int(m.group(2))
        lines=open(f'{d}/theories/{f}').read().split('\n')
        nm='?'
        for k in range(l-1,-1,-1):
            mm=re.match(r'\s*(?:Lemma|Theorem|Example|Corollary|Definition|Fixpoint|Fact|Remark)\s+(\w+)',lines[k])
            if mm: nm=mm.group(1);break
        fails.append(f'{f}:{nm}')
    print(i,s['def'],'|',s['new'][:60].replace('\n',' '),'=>',fails if fails else ('SURVIVED' if r.returncode==0 else 'rc%d'%r.returncode),flush=True)
    out.append(dict(definition=s['def'],edit=f"{s['old']}  ->  {s['new']}",claim_broken=s['claim'],theorems_failed=fails,theorems_tightened=s.get('tightened',[]),note=s.get('note','')))
json.dump(out,open(sys.argv[1]+'.out','w'),indent=1)
