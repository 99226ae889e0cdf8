#!/usr/bin/env python3
# Seeds bugs in a scratch copy of the model and records which theorems fail.
# usage: mutate.py batch.py [first [last]]   batch.py: m(file, old, new, claim, tightened)
# Result lines go to /verif/seeded/LOG.jsonl.
import sys,os,re,subprocess,shutil,json
W='/tmp/mut/rocq'
SRC=os.environ.get('MUT_SRC','/verif/rocq')
MODEL={'Base','Float','Tokens','Ast','Pn','ToPN','Ctx','Locator','Lexer','Parser','Messages','Literal','Visit','Validator','Api'}
muts=[]
def m(file,old,new,claim,tight=None,note=None): muts.append((file,old,new,claim,tight,note))
exec(open(sys.argv[1]).read())
a=int(sys.argv[2]) if len(sys.argv)>2 else 0
b=int(sys.argv[3]) if len(sys.argv)>3 else len(muts)
def enclosing(path,line):
    L=open(path).read().split('\n')
    for i in range(min(line,len(L))-1,-1,-1):
        k=re.match(r'\s*(?:Global |Local )?(?:Lemma|Theorem|Example|Definition|Fixpoint|Corollary|Fact|Remark)\s+(\w+)',L[i])
        if k: return k.group(1)
    return '?'
def defname(path,old):
    s=open(path).read(); i=s.index(old)
    # the definition that contains the edit: last header at or before its end of line
    eol=s.find('\n',i); eol=len(s) if eol<0 else eol
    k=list(re.finditer(r'^\s*(?:Definition|Fixpoint|with|Record|Inductive)\s+(\w+)',s[:max(eol,i+1)],re.M))
    return k[-1].group(1) if k else '?'
for n,(f,old,new,claim,tight,note) in list(enumerate(muts))[a:b]:
    os.makedirs('/tmp/mut',exist_ok=True)
    subprocess.run(['rsync','-a','--delete',SRC+'/',W+'/'],check=False) if shutil.which('rsync') else (shutil.rmtree(W,ignore_errors=True),shutil.copytree(SRC,W,copy_function=shutil.copy2))
    p=f'{W}/theories/{f}.v'
    s=open(p).read()
    if s.count(old)!=1: print(n,'PATTERN',s.count(old),f,old[:60]); continue
    d=defname(p,old)
    open(p,'w').write(s.replace(old,new))
    subprocess.run('coq_makefile -f _CoqProject -o Makefile >/dev/null',shell=True,cwd=W)
    # MUT_TARGETS: build only these files (and what they need)
    r=subprocess.run('timeout 2400 nice make -k -j2 %s 2>&1'%' '.join('theories/%s.vo'%t for t in os.environ.get('MUT_TARGETS','').split()),shell=True,cwd=W,capture_output=True,text=True)
    fails=[]
    for k in re.finditer(r'File "\./theories/(\w+)\.v", line (\d+)[^\n]*\n(Error[^\n]*(?:\n[^\n]*)?)',r.stdout):
        fails.append((k.group(1),enclosing(f'{W}/theories/{k.group(1)}.v',int(k.group(2)))))
    inmodel=[x for x in fails if x[0] in MODEL]
    tests=[x for x in fails if x[0].startswith('Conform')]
    proofs=[x for x in fails if x[0] not in MODEL and not x[0].startswith('Conform')]
    # property theorems that can no longer be built
    unb=re.findall(r'theories/(Properties\w+)\.vo\]',r.stdout)
    alive=[q for q in os.listdir(W+'/theories') if re.fullmatch(r'Properties\w+\.v',q) and not os.path.exists(f'{W}/theories/{q}o')]
    rec=dict(definition=f'{f}.{d}',edit=f'{old}  ==>  {new}',breaks=claim,failed=[f'{x}.{y}' for x,y in proofs],
             conformance_tests_failed=[f'{x}.{y}' for x,y in tests],tightened=tight or [])
    if note: rec['note']=note
    print(n,json.dumps(rec)[:400], 'MODEL BROKEN %s'%inmodel if inmodel else '')
    sys.stdout.flush()
    if not inmodel: open('/verif/seeded/LOG.jsonl','a').write(json.dumps(rec)+'\n')
