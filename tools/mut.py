#!/usr/bin/env python3
"""Mutation harness.  mut.py base        : timed clean build of a scratch copy
                      mut.py run F.json  : run the mutations listed in F.json (list of objects
   {file, definition, old, new, edit, claim, props:[Props files], n?})
For a mutation: apply the edit in a scratch copy, rebuild what depends on it (up to the named
Props files); whenever a proof fails, replace it by Admitted (recording its name) and go on;
finally Print Assumptions of every theorem of the Props files tells which property theorems
depend on a failed proof."""
import sys,os,re,subprocess,json,time,shutil,threading,queue
ROOT='/verif/rocq/theories'; W='/tmp/mut'; NW=int(os.environ.get('NW','3'))
def deps():
    out=subprocess.run('coqdep -Q . Verif *.v',shell=True,cwd=ROOT,capture_output=True,text=True).stdout
    d={}
    for l in out.splitlines():
        m=re.match(r'(\w+)\.vo .*?: (.*)',l)
        if m: d[m[1]]=[x[:-3] for x in m[2].split() if x.endswith('.vo') and '/' not in x]
    return d
def topo(d):
    o=[];s=set()
    def v(x):
        if x in s: return
        s.add(x)
        for y in d[x]: v(y)
        o.append(x)
    for x in sorted(d): v(x)
    return o
def coqc(dir,mod,to):
    cmd='ulimit -v 7000000; exec timeout %d coqc -time -Q . Verif %s.v'%(to,mod)
    p=subprocess.run(['bash','-c',cmd],cwd=dir,capture_output=True,text=True,errors='replace')
    return p.returncode,p.stdout,p.stderr
KW=re.compile(r'(?m)^[ \t]*(?:#\[[^\]]*\]\s*)?(?:Local |Global |Program )*(Lemma|Theorem|Corollary|Example|Fact|Remark|Proposition|Fixpoint|Definition|Instance|Inductive|Ltac|Record)\s+(\w+)')
def off_of(text,err,out,rc):
    m=re.findall(r'File "\./?\w+\.v", line (\d+), characters (\d+)-(\d+)',err)
    if rc!=0 and m and 'Error' in err:
        # the last location before "Error"
        i=err.rfind('Error'); mm=[x for x in re.finditer(r'line (\d+), characters (\d+)-(\d+)',err) if x.start()<i]
        ln,c=int(mm[-1][1]),int(mm[-1][2])
        b=text.encode(); pos=0
        for _ in range(ln-1): pos=b.index(b'\n',pos)+1
        return pos+c
    m=re.findall(r'Chars (\d+) - (\d+)',out)
    return int(m[-1][1])+1 if m else 0
def admit(path,off):
    """replace the proof at byte offset off by Admitted; returns name or None"""
    b=open(path,'rb').read().decode('utf8')
    # byte -> char offset
    off=len(b.encode()[:off].decode('utf8','ignore'))
    last=None
    for m in KW.finditer(b):
        if m.start()<=off+1: last=m
        else: break
    if not last: return None
    q=re.compile(r'\b(Qed|Defined)\.').search(b,last.start())
    pr=re.compile(r'\bProof\b').search(b,last.start())
    nx=KW.search(b,last.end())
    if not q or not pr or pr.start()>q.start(): 
        return 'DEF:'+last[2]
    if off<pr.start(): return 'STATEMENT:'+last[2]
    if last[1] in('Definition','Fixpoint') and nx and nx.start()<pr.start(): return 'DEF:'+last[2]
    nb=b[:pr.start()]+'Admitted.'+b[q.end():]
    open(path,'w').write(nb)
    return last[2]
def load_times():
    return json.load(open(W+'/times.json'))
def thms(mod,dir=ROOT):
    t=open(f'{dir}/{mod}.v').read()
    return re.findall(r'(?m)^(?:Theorem|Lemma|Corollary)\s+(C\d\d_\w+)',t)
def run_one(m,dir,d,order,times):
    f=m['file']
    subprocess.run(f'rm -rf {dir} && cp -a {W}/base {dir}',shell=True,check=True)
    p=f'{dir}/{f}.v'; t=open(p).read()
    k=t.count(m['old'])
    if k!=1 and not m.get('n'): return {'error':f'old occurs {k} times'}
    if m.get('n'):  # n-th occurrence, 1 based
        parts=t.split(m['old']); n=m['n']; t=m['old'].join(parts[:n])+m['new']+m['old'].join(parts[n:])
    else: t=t.replace(m['old'],m['new'])
    open(p,'w').write(t)
    # closure
    props=m['props']
    need=set()
    def up(x):
        if x in need: return
        need.add(x)
        for y in d[x]: up(y)
    for x in props: up(x)
    dirty={f}
    for x in order:
        if any(y in dirty for y in d[x]): dirty.add(x)
    todo=[x for x in order if x in dirty and x in need]
    failed=[];bad=[];skip=set()
    t0=time.time()
    for x in todo:
        if any(y in skip for y in d[x]): skip.add(x); continue
        for it in range(40):
            if time.time()-t0>m.get("budget",2400): bad.append('BUDGET '+x); skip.add(x); break
            rc,o,e=coqc(dir,x,int(60+4*times.get(x,20)))
            if rc==0: break
            src=open(f'{dir}/{x}.v').read()
            off=off_of(src,e,o,rc)
            nm=admit(f'{dir}/{x}.v',off)
            if nm is None or ':' in nm:
                bad.append(f'{x}.{nm}: {e[-200:]}'); skip.add(x); break
            failed.append(f'{x}.{nm}'+('(timeout)' if rc==124 else ''))
        else: bad.append('ITER '+x); skip.add(x)
    res=[];unk=[]
    for pf in props:
        if pf in skip: unk.append(pf); continue
        ths=thms(pf)
        open(f'{dir}/ZZ.v','w').write(f'From Verif Require Import {pf}.\n'+''.join(f'Print Assumptions {x}.\n' for x in ths))
        rc,o,e=coqc(dir,'ZZ',300)
        o='\n'.join(l for l in o.splitlines() if not l.startswith('Chars '))
        blocks=re.split(r'(?m)^(?=Closed under the global context|Axioms:)',o)[1:]
        if len(blocks)!=len(ths): unk.append(pf+f'?({len(blocks)}/{len(ths)})'); continue
        names={x.split('.')[1].split('(')[0] for x in failed}
        for th,b in zip(ths,blocks):
            ax=set(re.findall(r'(?m)^(\w[\w.]*)\s*(?::|$)',b))
            ax={a.split('.')[-1] for a in ax}
            if ax & names or th in names: res.append(th)
    return {'failed_proofs':failed,'theorems_failed':res,'blocked':bad,'not_rebuilt':unk,'secs':round(time.time()-t0)}
def main():
    if sys.argv[1]=='base':
        b=W+'/base'; shutil.rmtree(b,ignore_errors=True); os.makedirs(b)
        subprocess.run(f'cp -p {ROOT}/*.v {b}/',shell=True)
        d=deps(); order=topo(d); times={}
        done=set();lock=threading.Lock();pend=list(order);run=set()
        def w():
            while True:
                with lock:
                    if not pend: return
                    x=next((y for y in pend if all(z in done for z in d[y])),None)
                    if x: pend.remove(x)
                if not x: time.sleep(0.2); continue
                t=time.time(); rc,o,e=coqc(b,x,3000)
                with lock:
                    done.add(x); times[x]=time.time()-t
                    if rc: print('FAIL',x,e[-300:])
        ts=[threading.Thread(target=w) for _ in range(4)]
        [t.start() for t in ts];[t.join() for t in ts]
        json.dump(times,open(W+'/times.json','w'))
        for x in sorted(times,key=lambda y:-times[y])[:25]: print(x,round(times[x]))
        print(sum(times.values()))
        return
    ms=json.load(open(sys.argv[2])); d=deps(); order=topo(d); times=load_times()
    q=queue.Queue()
    for i,m in enumerate(ms): q.put((i,m))
    outf=sys.argv[2].replace('.json','.out.jsonl')
    done={}
    if os.path.exists(outf):
        for l in open(outf):
            r=json.loads(l); done[(r['file'],r['old'],r['new'])]=1
    lock=threading.Lock()
    def w(k):
        while True:
            try: i,m=q.get_nowait()
            except queue.Empty: return
            if (m['file'],m['old'],m['new']) in done: continue
            try: r=run_one(m,f'{W}/w{k}',d,order,times)
            except Exception as ex: r={'error':repr(ex)}
            with lock:
                open(outf,'a').write(json.dumps({**m,**r})+'\n')
                print(i,m['file'],m['definition'],'|',m['edit'],'=>',r.get('error') or (r['theorems_failed'],[x for x in r['blocked']],r['not_rebuilt'],r['secs']),flush=True)
    ts=[threading.Thread(target=w,args=(k,)) for k in range(NW)]
    [t.start() for t in ts];[t.join() for t in ts]
main()
