#!/usr/bin/env python3
"""mut.py FILE.json: [{def, file, old, new, edit, claim}]  -> runs each mutant, prints failing theorems, appends LOG lines to out"""
import sys, json, os, re, subprocess, shutil
SRC=os.environ.get('MSRC','/verif/rocq'); W='/tmp/w/mut/rocq'
def sh(cmd, **k): return subprocess.run(cmd, shell=True, capture_output=True, text=True, **k)
def deps_order():
    return [l.strip() for l in open(SRC+'/_CoqProject') if l.strip().endswith('.v')]
def refresh():
    os.makedirs(W, exist_ok=True)
    sh(f'rsync -a --delete {SRC}/ {W}/') if shutil.which('rsync') else (shutil.rmtree(W), shutil.copytree(SRC, W))
def admit_at(path, line):
    L=open(path).read().split('\n')
    # find the start of statement containing line
    i=line-1
    st=None
    j=i
    while j>=0:
        if re.match(r'\s*(#\[\w+\]\s*)?(Lemma|Theorem|Example|Corollary|Fact|Remark)\b', L[j]): st=j;break
        j-=1
    if st is None: return None
    name=re.match(r'\s*(?:#\[\w+\]\s*)?\w+\s+([\w\']+)', L[st]).group(1)
    # find Proof. .. Qed.
    k=st
    while k<len(L) and not re.search(r'\bProof\b', L[k]): k+=1
    e=k
    while e<len(L) and not re.search(r'\b(Qed|Defined)\.', L[e]): e+=1
    if k>=len(L) or e>=len(L) or not (st<=i<=e): return None
    pre=L[k][:L[k].index('Proof')]
    L[k:e+1]=[pre+'Proof. Admitted.']+['']*(e-k)
    open(path,'w').write('\n'.join(L))
    return name
def run(m):
    refresh()
    p=W+'/theories/'+m['file']
    s=open(p).read()
    n=s.count(m['old'])
    if n!=1: return {'error':f'old occurs {n} times'}
    open(p,'w').write(s.replace(m['old'],m['new']))
    broken=[]; hard=[]; props=[]; seen=set()
    only=m.get('only')
    order=deps_order()
    start=order.index('theories/'+m['file'])
    dirty={m['file'][:-2]}
    for f in order[start:]:
        t=open(W+'/'+f).read()
        base=os.path.basename(f)[:-2]
        req=set()
        for mm in re.finditer(r'From Verif Require (?:Import|Export) ([^.]*)\.', t): req|=set(mm.group(1).split())
        if base not in dirty and not (req & dirty): continue
        dirty.add(base)
        for _ in range(60):
            r=sh(f'cd {W} && timeout 600 coqc -Q theories Verif {f}')
            if r.returncode==0: break
            mm=re.search(r'line (\d+), characters', r.stderr)
            if not mm: hard.append(base+': '+r.stderr[-300:]); break
            nm=admit_at(W+'/'+f, int(mm.group(1)))
            if nm is None:
                hard.append(f'{base}:{mm.group(1)}: '+r.stderr[-300:]); break
            if (base,nm) in seen: hard.append(f'{base}:{nm}: statement no longer typechecks'); break
            seen.add((base,nm)); broken.append(nm)
        if base.endswith('_props') or 'Print Assumptions' in t:
            if r.returncode==0:
                names=re.findall(r'^Print Assumptions (\S+)\.', t, re.M)
                outs=re.split(r'(?=Closed under the global context|Axioms:)', r.stdout)
                outs=[o for o in outs if o.startswith('Closed') or o.startswith('Axioms')]
                if len(outs)==len(names):
                    for a,o in zip(names,outs):
                        if o.startswith('Axioms'): props.append(a)
                else: hard.append(f'{base}: {len(outs)} outs vs {len(names)} names')
        if r.returncode!=0: break
    return {'broken':broken,'props':props,'hard':hard}
if __name__=='__main__':
    ms=json.load(open(sys.argv[1])); out=open(sys.argv[2],'a') if len(sys.argv)>2 else None
    for m in ms:
        r=run(m)
        print(m['def'],'|',m['edit'],'->',json.dumps(r,ensure_ascii=False)[:1500],flush=True)
        if out and 'error' not in r:
            out.write(json.dumps({'definition':m['def'],'file':m['file'],'edit':m['edit'],'claim_broken':m['claim'],'theorems_failed':r['props'],'lemmas_failed':r['broken'],'other':r['hard'],'theorems_tightened':m.get('tightened',[])},ensure_ascii=False)+'\n'); out.flush()
