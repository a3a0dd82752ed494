#!/usr/bin/env python3
"""Convert mutation results (/tmp/mut/results.jsonl) into seeded/LOG.jsonl.
Extra hand-written fields (tightened, note) come from tools/seed_notes.json keyed by id."""
import json,os
ren=json.load(open('/tmp/w/ren.json')) if os.path.exists('/tmp/w/ren.json') else {}
notes=json.load(open('/verif/tools/seed_notes.json')) if os.path.exists('/verif/tools/seed_notes.json') else {}
last={}
for l in open('/tmp/mut/results.jsonl'):
    d=json.loads(l); last.setdefault(d['id'],[]).append(d)
out=[]
for i,ds in last.items():
    ds=[d for d in ds if not d['res'].get('error')]
    if not ds: continue
    for k,d in enumerate(ds):
        r=d['res']
        n=notes.get(i,{})
        final=(k==len(ds)-1)
        if not r['failed'] and final and n.get('skip'): continue
        # edits that were not well formed (the definition itself no longer parsed or typed)
        if n.get('note_invalid') and k==0 and any('not admit' in x[1] for x in r['failed']): continue
        o=dict(id=i,definition=d['defn'],file='rocq/theories/'+d['file'],edit=d['edit'],old=d['old'],new=d['new'],claim_broken=d['claim'],
          outcome='caught' if r['failed'] else 'survived',
          broken_proofs=[ren.get(x[1],x[1]) for x in r['failed'] if x[0]!='??'],
          theorems_failed=[ren.get(x,x) for x in r['theorems']] or n.get('theorems_failed',[]),
          theorems_tightened=n.get('tightened',[]) if not r['failed'] else [])
        if n.get('note'): o['note']=n['note']
        out.append(o)
open('/verif/seeded/LOG.jsonl','w').write(''.join(json.dumps(o)+'\n' for o in out))
print(len(out),[o['id'] for o in out if o['outcome']=='survived'])

# ---- automatic edits (auto.py, auto2.py, auto3.py): one literal/operator/structure edit each,
# the build stops at the first proof that fails. theorems_failed are the property theorems
# whose proof reaches that proof (by name, over the sources).
import re,glob
TH='/verif/rocq/theories/'
uses={}; thms=set()
for p in glob.glob(TH+'*.v'):
    s=open(p).read()
    s=re.sub(r'\(\*.*?\*\)','',s,flags=re.S)
    parts=re.split(r'(?m)^\s*(?:Local |Global )?(Theorem|Lemma|Example|Corollary|Fact|Remark|Definition|Fixpoint|Proposition)\s+([\w\']+)',s)
    for i in range(1,len(parts)-2,3):
        nm=parts[i+1]; uses.setdefault(nm,set()).update(re.findall(r"[A-Za-z_][\w']*",parts[i+2]))
        if parts[i]=='Theorem' and re.match(r'C\d+',nm): thms.add(nm)
rev={}
for a,u in uses.items():
    for b in u:
        if b in uses and b!=a: rev.setdefault(b,set()).add(a)
def reach(x):
    seen={x}; todo=[x]
    while todo:
        y=todo.pop()
        for z in rev.get(y,()):
            if z not in seen: seen.add(z); todo.append(z)
    return sorted(seen&thms,key=lambda t:(int(re.match(r'C(\d+)',t).group(1)),t))
why={}
wp='/verif/tools/auto_notes.json'
if os.path.exists(wp): why=json.load(open(wp))
lines=[]; seen=set(); k=0
for fn in ('auto','auto2','auto3_first','auto3'):
    p='/tmp/mut/%s.jsonl'%fn
    if not os.path.exists(p): continue
    for l in open(p):
        d=json.loads(l)
        key=(d['file'],d['defn'],d['pos'],d['old'],d['new'])
        if key in seen or d['status'] not in('killed','SURVIVED'): continue
        seen.add(key); k+=1
        o=dict(id='A%d'%k,definition=d['defn'],file='rocq/theories/'+d['file']+'.v',edit='automatic edit',old=d['old'],new=d['new'],context=' '.join(d['ctx'].split()),
           claim_broken='',outcome='caught' if d['status']=='killed' else 'survived',broken_proofs=[],theorems_failed=[],theorems_tightened=[])
        if d['status']=='killed':
            o['broken_proofs']=[d['where'].split(':')[-1]]
            t=reach(o['broken_proofs'][0]); o['theorems_failed']=t[:8]
            o['claim_broken']=re.match(r'C\d+',t[0]).group(0) if t else ''
        else:
            n=why.get(d['file']+'.'+d['defn'],{})
            o['theorems_tightened']=n.get('tightened',[]); o['note']=n.get('note','')
            o['claim_broken']=n.get('claim','none')
        lines.append(o)
open('/verif/seeded/LOG.jsonl','a').write(''.join(json.dumps(o)+'\n' for o in lines))
print('auto',len(lines),'survived',sum(o['outcome']=='survived' for o in lines),'no theorem',sum(o['outcome']=='caught' and not o['theorems_failed'] for o in lines),
  'no note',[o['file'][14:-2]+'.'+o['definition'] for o in lines if o['outcome']=='survived' and not o['note']])
