#!/usr/bin/env python3
"""Generate Coq conformance checks from the Go tests in /repo.

Each expectX(t, source, expected, options...) call of parser_test.go and
checker_test.go becomes one Example checked by vm_compute.  These are tests of
the model's fidelity, not proofs of properties."""
import re, sys

def lex(src):
    toks=[]; i=0; n=len(src)
    while i<n:
        c=src[i]
        if c.isspace(): i+=1; continue
        if src.startswith('//',i):
            i=src.find('\n',i); i = n if i<0 else i; continue
        if src.startswith('/*',i):
            i=src.index('*/',i)+2; continue
        if c=='`':
            j=src.index('`',i+1); toks.append(('s',src[i+1:j].replace('\r','').encode('utf-8'))); i=j+1; continue
        if c=='"':
            j=i+1; out=b''
            while src[j]!='"':
                if src[j]=='\\':
                    e=src[j+1]
                    m={'n':b'\n','t':b'\t','r':b'\r','\\':b'\\','"':b'"',"a":b'\a','b':b'\b','f':b'\f','v':b'\v'}
                    if e in m: out+=m[e]; j+=2
                    elif e=='x': out+=bytes([int(src[j+2:j+4],16)]); j+=4
                    elif e=='u': out+=chr(int(src[j+2:j+6],16)).encode(); j+=6
                    elif e=='U': out+=chr(int(src[j+2:j+10],16)).encode(); j+=10
                    elif e in '01234567': out+=bytes([int(src[j+1:j+4],8)]); j+=4
                    else: raise Exception('esc '+e)
                else: out+=src[j].encode('utf-8'); j+=1
            toks.append(('s',out)); i=j+1; continue
        if c=="'":
            j=i+1
            while src[j]!="'":
                j+= 2 if src[j]=='\\' else 1
            toks.append(('r',src[i:j+1])); i=j+1; continue
        m=re.compile(r'[A-Za-z_]\w*|\d[\w.]*').match(src,i)
        if m: toks.append(('w',m.group())); i=m.end(); continue
        toks.append(('p',c)); i+=1
    return toks

def unindent(b):
    lines=b.split(b'\n')
    if lines and lines[0].strip(b' \t')==b'': lines=lines[1:]
    ind=[len(l)-len(l.lstrip(b' \t')) for l in lines if l.strip(b' \t')]
    m=min(ind) if ind else 0
    out=[l[m:] if len(l)>m else b'' for l in lines]
    return b'\n'.join(out)

class P:
    def __init__(s,t): s.t=t; s.i=0
    def peek(s): return s.t[s.i]
    def expr(s):
        v=s.atom()
        while s.i<len(s.t) and s.peek()==('p','+'):
            s.i+=1; w=s.atom(); v=v+w
        return v
    def atom(s):
        k,v=s.t[s.i]; s.i+=1
        if k=='s': return v
        if k=='w':
            if v=='issue' and s.t[s.i]==('p','.'):
                assert s.t[s.i+1]==('w','Unindent'), s.t[s.i+1]
                s.i+=2; assert s.t[s.i]==('p','('); s.i+=1
                x=s.expr(); assert s.t[s.i]==('p',')'); s.i+=1
                return unindent(x)
            return ('id',v)
        raise Exception(('atom',k,v))

def calls(src,prefix):
    t=lex(src); i=0; res=[]; fn=''
    while i<len(t)-1:
        if t[i]==('w','func') and t[i+1][0]=='w': fn=t[i+1][1]; i+=2; continue
        if t[i][0]=='w' and t[i][1].startswith(prefix) and t[i+1]==('p','(') and fn.startswith('Test'):
            name=t[i][1]; p=P(t); p.i=i+2; args=[]
            try:
                while True:
                    args.append(p.expr())
                    if p.peek()==('p',','):
                        p.i+=1
                        if p.peek()==('p',')'): break
                        continue
                    assert p.peek()==('p',')'); break
                res.append((fn,name,args)); i=p.i
            except Exception as e:
                print('skip',fn,name,e,file=sys.stderr); i+=1
            continue
        i+=1
    return res

def coqstr(b):
    return '['+'; '.join(str(x) for x in b)+']'
def coqlit(b):
    if all(32<=x<127 for x in b):
        return '(lit "'+b.decode().replace('"','""')+'")'
    # split lines for readability
    return coqstr(b)

OPT={'EppMode':'o_epp','HandleBacktickStrings':'bt','HandleHexEscapes':'hex','TasksEnabled':'tasks','WorkflowEnabled':'wf'}
def opts(ids):
    f=lambda k:'true' if k in ids else 'false'
    return f"(mkopts {f('EppMode')} {f('HandleBacktickStrings')} {f('HandleHexEscapes')} {f('TasksEnabled')} {f('WorkflowEnabled')} true no_letter)"

HEAD='''(** * %s: generated by tools/goconf.py from %s

    Each Go test becomes an Example that the model passes by computation.
    These are tests of the model against the expectations recorded in the
    repository, not property proofs. *)
From Verif Require Import Base Float Tokens Ast Pn ToPN Ctx Locator Lexer Parser Messages Literal Visit Validator Api Conform.
'''
def main():
    out=open('/verif/rocq/theories/ConformParser.v','w')
    out.write(HEAD%('ConformParser','parser/parser_test.go'))
    cs=calls(open('/repo/parser/parser_test.go').read(),'expect')
    n=0
    for fn,name,args in cs:
        ids=[a[1] for a in args if isinstance(a,tuple) and a[1]!='t']
        strs=[a for a in args if isinstance(a,bytes)]
        if name.endswith('EPP'): ids.append('EppMode'); name=name[:-3]
        n+=1
        o=opts(ids)
        if name=='expectDump': g=f"dump {o} {coqlit(strs[0])} = Some {coqlit(strs[1])}"
        elif name=='expectBlock': g=f"block {o} {coqlit(strs[0])} = Some {coqlit(strs[1])}"
        elif name=='expectError': g=f"error {o} {coqlit(strs[0])} = Some {coqlit(strs[1])}"
        elif name=='expectHeredoc':
            if len(strs)>2: g=f"heredoc {o} {coqlit(strs[0])} = Some ({coqlit(strs[2])}, {coqlit(strs[1])})"
            else: g=f"option_map snd (heredoc {o} {coqlit(strs[0])}) = Some {coqlit(strs[1])}"
        else:
            print('unknown',name,file=sys.stderr); continue
        out.write(f"Example {fn}_{n} : {g}.\nProof. vm_compute. reflexivity. Qed.\n")
    out.close(); print(n,'parser tests')
    out=open('/verif/rocq/theories/ConformValidator.v','w')
    out.write(HEAD%('ConformValidator','validator/*_test.go'))
    n=0
    for f,k in (('checker_test.go','Basic'),('tasks_checker_test.go','Tasks'),('workflow_checker_test.go','Workflow')):
        for fn,name,args in calls(open('/repo/validator/'+f).read(),'expect'):
            src=[a for a in args if isinstance(a,bytes)][0]
            ids=[a[1] for a in args if isinstance(a,tuple) and a[1]!='t']
            codes=[i for i in ids if i.startswith('Validate')]
            po=[]
            if name.endswith('EPP'): po.append('EppMode')
            if k=='Tasks': po.append('TasksEnabled')
            if k=='Workflow': po.append('WorkflowEnabled')
            n+=1
            cl='['+'; '.join(c[len('Validate'):] for c in codes)+']'
            out.write(f"Example {fn}_{n} : expect_issues {k} {opts(po)} {coqlit(src)} {cl} = true.\nProof. vm_compute. reflexivity. Qed.\n")
    out.close(); print(n,'validator tests')
main()
