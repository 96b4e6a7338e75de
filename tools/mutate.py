#!/usr/bin/env python3
"""Seeded-bug runner.  usage: mutate.py SPEC.json OUTDIR
SPEC: {"id","file","old","new","def","edit","claim"}.  Works in a scratch copy of rocq/.
Every proof that no longer compiles is replaced by a cheat in the scratch copy, so that later
files are still tried; a theorem counts as failing when its own proof broke or when it now
rests on the cheat."""
import json,sys,os,re,subprocess,shutil,time
spec=json.load(open(sys.argv[1])); out=sys.argv[2]
SRC=os.environ.get('MUT_SRC','/verif/rocq')
wd=f'/tmp/mut/w_{spec["id"]}'
subprocess.run(['rm','-rf',wd]); subprocess.run(['cp','-a',SRC,wd],check=True)
order=[l.strip()[len('theories/'):-2] for l in open(f'{wd}/_CoqProject') if l.strip().endswith('.v')]
deps={}
for f in order:
    t=open(f'{wd}/theories/{f}.v').read()
    t=re.sub(r'\(\*.*?\*\)','',t,flags=re.S)
    ds=set()
    for m in re.finditer(r'From Verif Require (?:Import |Export )?([\w\s]+?)\.(?=\s)',t):
        ds|=set(m.group(1).split())
    deps[f]=ds
dirty=set([spec['file']])
edits=spec.get('edits') or [[spec['old'],spec['new']]]
p=f'{wd}/theories/{spec["file"]}.v'
t=open(p).read()
for o,n in edits:
    assert t.count(o)==1,(t.count(o),o)
    t=t.replace(o,n)
open(p,'w').write(t)
broken=[];first={}
def cheatify(path,pos):
    """replace the proof enclosing/after byte pos"""
    b=open(path,'rb').read()
    # find last 'Proof' before-or-at the failing sentence
    txt=b
    ends=[m.start() for m in re.finditer(rb'\b(?:Qed|Defined)\.',txt)]
    e=[x for x in ends if x>=pos]
    if not e: return None
    e=e[0]
    pr=[m.start() for m in re.finditer(rb'\bProof\b[^.]*\.',txt[:e])]
    if not pr: return None
    s=pr[-1]
    head=txt[:s]
    st=[m for m in re.finditer(rb'\b(?:Lemma|Theorem|Example|Fact|Corollary|Definition|Instance|Remark|Local Lemma)\s+([\w\']+)',head)]
    name=st[-1].group(1).decode()
    if pos<st[-1].start(): return None
    m=re.match(rb'Proof\b[^.]*\.',txt[s:])
    if b'cheat_ax' in txt[s:e]: return None
    end=re.match(rb'(Qed|Defined)\.',txt[e:]).group(0)
    new=txt[:s]+m.group(0)+b' exact (Verif_cheat.cheat_ax _). Qed.'+txt[e+len(end):]
    open(path,'wb').write(new)
    return name
open(f'{wd}/theories/Verif_cheat.v','w').write('Axiom cheat_ax : forall T : Prop, T.\n')
subprocess.run(['coqc','-Q','theories','Verif','theories/Verif_cheat.v'],cwd=wd)
status='ok'
t0=time.time()
only=set((os.environ.get('MUT_ONLY') or spec.get('only') or ' '.join(order)).split())
while True:
    more=set().union(*[deps.get(f,set()) for f in only])-only
    if not more: break
    only|=more
for f in order:
    if f not in only: continue
    if f not in dirty and not (deps[f]&dirty): continue
    if f==spec['file'] or deps[f]&dirty: dirty.add(f)
    if f in ('ModelTests',) and spec.get('skiptests'): continue
    path=f'{wd}/theories/{f}.v'
    tries=0
    while True:
        tries+=1
        try:
            r=subprocess.run(['coqc','-time','-Q','theories','Verif',f'theories/{f}.v'],cwd=wd,capture_output=True,timeout=400)
            rc=r.returncode; o=r.stdout; err=r.stderr.decode(errors='replace')
        except subprocess.TimeoutExpired as ex:
            rc=124; o=ex.stdout or b''; err='timeout'
        if rc==0: break
        chars=[int(m.group(1)) for m in re.finditer(rb'Chars \d+ - (\d+)',o)]
        pos=chars[-1]+1 if chars else 0
        m=re.search(r'line (\d+), characters (\d+)-(\d+)',err)
        if m:
            ln=int(m.group(1)); c=int(m.group(2))
            data=open(path,'rb').read().split(b'\n')
            pos=sum(len(x)+1 for x in data[:ln-1])+c
        name=cheatify(path,pos)
        if name is None:
            status=f'{f}: cannot continue: {err[-400:]}'; break
        # make cheat visible
        txt=open(path).read()
        if 'From Verif Require Verif_cheat.' not in txt:
            i=re.search(r'From Verif Require',txt) or re.search(r'^(From|Require)',txt,re.M)
            txt=txt[:i.start()]+'From Verif Require Verif_cheat.\n'+txt[i.start():]
            open(path,'w').write(txt)
        broken.append(f'{f}.{name}'); first.setdefault(f'{f}.{name}',err.strip()[-300:])
        if tries>60: status='too many'; break
    if status!='ok': break
# theorems resting on the cheat
thms=[]
for f in order:
    if f not in dirty: continue
    if not os.path.exists(f'{wd}/theories/{f}.vo'): continue
    for m in re.finditer(r'^(?:Theorem|Corollary)\s+([\w\']+)',open(f'{wd}/theories/{f}.v').read(),re.M):
        thms.append((f,m.group(1)))
fail=[];alive=[]
if status=='ok' and thms:
    q=''.join(f'From Verif Require {f}.\n' for f in dict.fromkeys(x for x,_ in thms))
    for f,n in thms: q+=f'Goal True. idtac "@@ {f}.{n}". exact I. Qed.\nPrint Assumptions {f}.{n}.\n'
    os.makedirs(f'{wd}/q',exist_ok=True)
    open(f'{wd}/q/Q.v','w').write(q)
    r=subprocess.run(['coqc','-Q','theories','Verif','q/Q.v'],cwd=wd,capture_output=True)
    cur=None
    for l in r.stdout.decode(errors='replace').split('\n'):
        if l.startswith('@@ '): cur=l[3:]; alive.append(cur)
        elif 'cheat_ax' in l and cur and cur not in fail: fail.append(cur); alive.remove(cur)
    if r.returncode: status='query failed '+r.stderr.decode()[-300:]
res=dict(id=spec['id'],definition=f'{spec["file"]}.{spec["def"]}',edit=spec['edit'],claim=spec['claim'],status=status,seconds=int(time.time()-t0),broken_proofs=broken,theorems_failed=fail,theorems_alive=alive,first=first)
json.dump(res,open(f'{out}/{spec["id"]}.json','w'),indent=1,ensure_ascii=False)
subprocess.run(['rm','-rf',wd])
print(spec['id'],status,len(fail),'failed',len(alive),'alive',res['seconds'],'s')
