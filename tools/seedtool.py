#!/usr/bin/env python3
"""seedtool: apply one mutation to a scratch copy of /verif/rocq, admit every proof that breaks, and report
which top-level theorems (Print Assumptions in Prop*.v) end up depending on a broken proof."""
import sys,os,re,json,subprocess,shutil,time
from concurrent.futures import ThreadPoolExecutor, wait, FIRST_COMPLETED
SRC=os.environ.get('SEEDSRC','/verif/rocq')
def deps(work):
    files=[l.strip() for l in open(work+'/_CoqProject') if l.strip().endswith('.v')]
    out=subprocess.run(['coqdep','-Q','theories','Verif']+files,cwd=work,capture_output=True,text=True).stdout
    d={}
    for l in out.splitlines():
        m=re.match(r'(\S+)\.vo\s.*?:\s*(.*)',l)
        if m and '.vo' in l.split(':')[0]:
            d[m.group(1)+'.v']=[x[:-1] for x in m.group(2).split() if x.startswith('theories/') and x.endswith('.vo')]
    return d
def enclosing(src,off):
    # find the Proof...Qed around offset
    q=None
    for m in re.finditer(r'\bProof\b[^.]*\.',src):
        e=re.compile(r'\b(Qed|Defined)\.').search(src,m.end())
        if e and m.start()<=off<=e.end(): q=(m.start(),e.end())
    if not q: return None
    st=list(re.finditer(r'^\s*(?:Global |Local )?(Theorem|Lemma|Example|Corollary|Instance|Definition)\s+([\w\']+)',src[:q[0]],re.M))
    return q,(st[-1].group(2) if st else '?')
def compile1(work,f,tmo,log):
    path=work+'/'+f; broken=[]
    for it in range(80):
        try:
            p=subprocess.run('ulimit -v 6000000; exec timeout %d coqc -time -Q theories Verif %s'%(tmo,f),shell=True,cwd=work,capture_output=True,timeout=tmo+30)
            rc=p.returncode
        except subprocess.TimeoutExpired: rc=124
        if rc==0: return broken,p.stdout.decode(errors='replace'),True
        srcb=open(path,'rb').read(); src=srcb.decode()
        if rc==124 or b'Timeout' in p.stderr or b'Out of memory' in p.stderr or rc<0 or not re.search(rb'characters (\d+)',p.stderr):
            ls=re.findall(rb'Chars (\d+) - (\d+)',p.stdout)
            off=(int(ls[-1][1])+2) if ls else 0
        else:
            m=re.findall(r'line (\d+), characters (\d+)-',p.stderr.decode(errors='replace'))[-1]
            lines=srcb.split(b'\n'); off=sum(len(x)+1 for x in lines[:int(m[0])-1])+int(m[1])
        off=len(srcb[:off].decode(errors='ignore'))
        e=enclosing(src,off)
        if not e:
            log.append('%s: STATEMENT ERROR %s'%(f,p.stderr.decode(errors='replace')[-300:])); return broken,p.stdout.decode(errors='replace'),False
        (a,b),name=e
        broken.append(name)
        open(path,'w').write(src[:a]+'Proof. Admitted.'+src[b:])
    return broken,'',False
def run(mut,tmo=240,keep=False):
    work='/tmp/seed/work'
    os.makedirs('/tmp/seed',exist_ok=True)
    subprocess.run('rm -rf %s; cp -a %s %s'%(work,SRC,work),shell=True)
    edits=mut['edits']
    first=set()
    for f,old,new in edits:
        p=work+'/theories/'+f+'.v'; s=open(p).read()
        if s.count(old)!=1: return {'error':'old string occurs %d times in %s'%(s.count(old),f)}
        open(p,'w').write(s.replace(old,new)); first.add('theories/'+f+'.v')
    d=deps(work)
    dirty=set(first); ch=True
    while ch:
        ch=False
        for f,ds in d.items():
            if f not in dirty and any(x in dirty for x in ds): dirty.add(f); ch=True
    for f in dirty:
        for ext in ('o','os','ok'):
            try: os.remove(work+'/'+f+ext)
            except OSError: pass
    done=set(d)-dirty; pend=set(dirty); failed=[]; log=[]; outs={}; t0=time.time()
    bad=set()
    with ThreadPoolExecutor(4) as ex:
        fut={}
        while pend or fut:
            for f in sorted(pend):
                if any(x in bad for x in d[f]): bad.add(f); pend.discard(f); continue
                if len(fut)<4 and all(x in done for x in d[f]):
                    fut[ex.submit(compile1,work,f,tmo,log)]=f; pend.discard(f)
            if not fut: break
            dn,_=wait(fut,return_when=FIRST_COMPLETED)
            for x in dn:
                f=fut.pop(x); br,out,ok=x.result()
                failed+=[(f[9:-2],n) for n in br]; outs[f]=out
                (done if ok else bad).add(f)
    hit=[]
    for f,out in outs.items():
        if '/Prop' not in f: continue
        names=re.findall(r'^Print Assumptions ([\w\']+)',open(work+'/'+f).read(),re.M)
        blocks=re.split(r'(?=^Closed under the global context|^Axioms:)',out,flags=re.M)[1:]
        blocks=[b for b in blocks]
        if len(names)!=len(blocks): log.append('%s: %d names %d blocks'%(f,len(names),len(blocks)))
        for n,b in zip(names,blocks):
            if b.startswith('Axioms'):
                body=re.sub(r'^Chars .*$','',b,flags=re.M)
                if [a for a in re.findall(r'^([\w.\']+)\s*:',body,re.M) if 'Under_rel' not in a and a!='Axioms']: hit.append(n)
    for f in bad: hit.append('(not built: %s)'%f)
    return {'broken_lemmas':['%s.%s'%x for x in failed],'theorems_failed':sorted(hit),'log':log,'sec':round(time.time()-t0)}
if __name__=='__main__':
    muts=json.load(open(sys.argv[1])); outp=sys.argv[2]
    seen={json.loads(l)['id'] for l in open(outp)} if os.path.exists(outp) else set()
    for m in muts:
        if m['id'] in seen: continue
        r=run(m); r['id']=m['id']; r['mut']=m
        open(outp,'a').write(json.dumps(r)+'\n')
        print(m['id'],r.get('sec'),r.get('error'),len(r.get('broken_lemmas',[])),r.get('theorems_failed'),flush=True)
