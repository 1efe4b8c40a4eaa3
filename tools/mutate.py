#!/usr/bin/env python3
"""Seeded-bug runner: apply one textual edit to a scratch copy of the model, rebuild the files of
the component, and report which theorems no longer hold.  A proof that breaks is replaced by
Admitted in the scratch copy so that the remaining ones are still checked; a theorem counts as
failed when it breaks itself or Print Assumptions shows that it now rests on an admitted lemma.

usage: mutate.py spec.json   (list of {file, def, old, new, claim, files:[..], expect:[..]})
"""
import json, os, re, shutil, subprocess, sys
SRC='/verif/rocq'; DST='/tmp/mut/rocq%d'%os.getpid(); LOG='/verif/seeded/LOG.jsonl'

def order():
    return [l.strip()[9:-2] for l in open(SRC+'/_CoqProject') if l.strip().startswith('theories/')]

def deps(files, mod):
    """modules depending (transitively) on mod, in build order"""
    req={}
    for f in files:
        txt=open(f'{SRC}/theories/{f}.v').read()
        req[f]=set(w for m in re.findall(r'From Verif Require (?:Import|Export)?\s*([^.]*)\.',txt) for w in m.split())
    out=[mod]
    for f in files:
        if f!=mod and req[f]&set(out): out.append(f)
    return out

def coqc(f):
    try:
        r=subprocess.run(['coqc','-Q','theories','Verif','-w','none',f'theories/{f}.v'],cwd=DST,capture_output=True,text=True,timeout=300)
        return r.returncode,r.stdout,r.stderr
    except subprocess.TimeoutExpired:
        return 99,'',''

HEAD=re.compile(r'^\s*(?:Local |Global |#\[[^\]]*\]\s*)*(Lemma|Theorem|Corollary|Example|Fact|Remark|Definition|Fixpoint|Instance|Inductive|Record)\s+([A-Za-z0-9_\']+)',re.M)

def build(f, failed, fatal):
    path=f'{DST}/theories/{f}.v'
    for _ in range(200):
        rc,out,err=coqc(f)
        if rc==0: return out
        m=re.search(r'line (\d+), characters',err)
        if not m: fatal.append(f'{f}: {err[-300:]} rc={rc}'); return None
        ln=int(m.group(1)); txt=open(path).read()
        pos=sum(len(x)+1 for x in txt.split('\n')[:ln-1]) + int(re.search(r'characters (\d+)',err).group(1))
        heads=[h for h in HEAD.finditer(txt) if h.start()<=pos]
        h=heads[-1]
        if h.group(1) in('Definition','Fixpoint','Inductive','Record'):
            fatal.append(f'{f}.{h.group(2)}: {err[-300:]}'); return None
        e=txt.find('Qed.',h.start())
        if e<0: e=txt.find('Defined.',h.start())
        pr=txt.find('Proof.',h.start())
        if pr<0 or pr>e: fatal.append(f'{f}.{h.group(2)} no proof'); return None
        end=txt.index('.',e)+1
        # error in the statement itself?
        if pos<pr:
            fatal.append(f'{f}.{h.group(2)} statement: {err[-300:]}'); return None
        txt=txt[:pr]+'Proof. Admitted.'+txt[end:]
        open(path,'w').write(txt)
        failed.append(h.group(2))
    fatal.append(f+': too many'); return None

def setdst():
    global DST
    DST='/tmp/mut/rocq%d'%os.getpid()

def run(m, log=True):
    if os.path.exists(DST): shutil.rmtree(DST)
    shutil.copytree(SRC,DST)
    p=f"{DST}/theories/{m['file']}.v"; txt=open(p).read()
    if txt.count(m['old'])!=1: print('BAD EDIT',m['def'],txt.count(m['old'])); return
    open(p,'w').write(txt.replace(m['old'],m['new']))
    fs=[f for f in deps(order(),m['file']) if 'only' not in m or f in m['only']]
    if not any(f.endswith('Thm') for f in fs): print('NO THEOREMS LISTED',m['file']); return
    failed=[];fatal=[];thms=[];examples=[]
    for f in fs:
        src=open(f'{DST}/theories/{f}.v').read()
        n0=len(failed)
        out=build(f,failed,fatal)
        if f.endswith('Thm'):
            ex=set(re.findall(r'Example\s+(\w+)',src))
            examples+= [x for x in failed[n0:] if x in ex]
            thms+= [x for x in failed[n0:] if x not in ex]
            if out is None: break
            names=re.findall(r'Print Assumptions\s+([\w\']+)\.',src)
            chunks=re.split(r'(?=^Closed under|^Axioms:)',out,flags=re.M)[1:]
            if len(names)!=len(chunks): print('MISMATCH',len(names),len(chunks))
            for n,c in zip(names,chunks):
                if c.startswith('Axioms') and n not in thms: thms.append(n)
        if fatal: break
    rec={'definition':m['file']+'.'+m['def'],'edit':m.get('edit') or (m['old'].strip()+'  ->  '+m['new'].strip()),'claim_broken':m['claim'],
         'theorems_failed':thms,'examples_failed':examples,'theorems_tightened':m.get('tightened',[])}
    if fatal: rec['note']='does not build: '+fatal[0][:200]
    if m.get('note'): rec['note']=m['note']
    print(rec['definition'],'| failed:',' '.join(thms) or '-', '| ex:',' '.join(examples) or '-', '|',rec.get('note',''),flush=True)
    miss=[x for x in m.get('expect',[]) if x not in thms]
    if (not thms and not fatal) or miss: print('   *** SURVIVED / missing',miss,flush=True)
    if log and not fatal:
        with open(LOG,'a') as fh: fh.write(json.dumps(rec)+'\n')
    shutil.rmtree(DST)
    return rec
if __name__=='__main__':
    from multiprocessing import Pool
    log='--nolog' not in sys.argv
    with Pool(2,initializer=setdst) as p: p.starmap(run,[(m,log) for m in json.load(open(sys.argv[1]))],chunksize=1)
