#!/usr/bin/env python3
"""Seeded-bug runs.  Copies /verif/rocq to a scratch directory, applies one edit
to a model file, rebuilds, and reports which lemma broke and which property
theorems rest on it (by name dependency).  Usage: mutate.py mutations.py [ids...]"""
import sys, os, re, subprocess, json, shutil
SRC=os.environ.get('MUT_SRC','/verif/rocq'); DST=os.environ.get('MUT_DIR','/tmp/mut'); LOG='/verif/seeded/LOG.jsonl'
def chunks():
    g={}; where={}
    for f in sorted(os.listdir(SRC+'/theories')):
        if not f.endswith('.v'): continue
        s=open(f'{SRC}/theories/{f}').read()
        ms=list(re.finditer(r'^\s*(?:Theorem|Lemma|Example|Definition|Fixpoint|Inductive|Record|Corollary|Fact|Ltac)\s+([A-Za-z0-9_\']+)',s,re.M))
        for i,m in enumerate(ms):
            e=ms[i+1].start() if i+1<len(ms) else len(s)
            g[m.group(1)]=set(re.findall(r"[A-Za-z_][A-Za-z0-9_']*",s[m.end():e])); where[m.group(1)]=(f,s[:m.start()].count('\n')+1)
    return g,where
def main():
    muts={}; exec(open(sys.argv[1]).read(),muts); muts=muts['M']; ids=set(sys.argv[2:])
    g,where=chunks()
    def users(n):
        out={n}; ch=True
        while ch:
            ch=False
            for k,v in g.items():
                if k not in out and v&out: out.add(k); ch=True
        return out
    for m in muts:
        mid,f,definition,old,new,claim=m[:6]
        if ids and mid not in ids: continue
        subprocess.run(f'rm -rf {DST}; cp -a {SRC} {DST}',shell=True,check=True)
        p=f'{DST}/theories/{f}'; s=open(p).read()
        if s.count(old)!=1: print(mid,'PATTERN COUNT',s.count(old)); continue
        open(p,'w').write(s.replace(old,new))
        r=subprocess.run('coq_makefile -f _CoqProject -o Makefile >/dev/null; timeout 900 make -k -j3 '+' '.join('theories/'+t+'.vo' for t in (m[6] if len(m)>6 else []))+' 2>&1',shell=True,cwd=DST,capture_output=True,text=True)
        fails=[]
        for em in re.finditer(r'File "\./theories/([A-Za-z0-9_]+\.v)", line (\d+), characters [0-9-]+:\n(?=Error)',r.stdout):
            ff,ln=em.group(1),int(em.group(2))
            best=max(((w[1],n) for n,w in where.items() if w[0]==ff and w[1]<=ln),default=(0,'?'))
            fails.append((ff,best[1]))
        th=set()
        for _,n in fails: th|={x for x in users(n) if re.match(r'C\d\d+_',x) and not re.match(r'C\d\d+_ex',x)}
        modelbroken=[x for x in fails if x[0]==f]
        rec={'id':mid,'definition':definition,'file':f,'edit':f'{old}  =>  {new}','claim':claim,'first_failures':[f'{a}:{b}' for a,b in fails],'theorems_failed':sorted(th),'theorems_tightened':[]}
        print(json.dumps(rec)); sys.stdout.flush()
        if modelbroken: print('  !! model file itself fails'); continue
        if not fails: print('  !! SURVIVED')
        with open(LOG,'a') as o: o.write(json.dumps(rec)+'\n')
main()
