# Reads the type aliases, enums and structs of a Rust source of /repo and gives the MeshedChannels types of its roles.
# Used once to write theories/Corpus*.v; not part of the build and not trusted by it.
import re,sys,os,glob,json
class Bad(Exception): pass
def strip(src):
    # blank comments, keep line structure
    src=re.sub(r'//[^\n]*','',src)
    src=re.sub(r'/\*.*?\*/',lambda m:re.sub(r'[^\n]','',m.group(0)),src,flags=re.S)
    return src
TOK=re.compile(r"\s*(::|->|'[a-zA-Z]\b(?!')|'.'|[A-Za-z_][A-Za-z0-9_]*|-?[0-9][0-9_a-z.]*|[<>(),&\[\];:+=*|{}.]|\"[^\"]*\"|.)",re.S)
def toks(s): return [t for t in TOK.findall(s) if t.strip()]
class P:
    def __init__(s,ts): s.t=ts; s.i=0
    def pk(s): return s.t[s.i] if s.i<len(s.t) else None
    def nx(s): s.i+=1; return s.t[s.i-1]
    def ex(s,x):
        if s.pk()!=x: raise Bad('expected %s got %s in %s'%(x,s.pk(),' '.join(s.t[max(0,s.i-5):s.i+5])))
        s.i+=1
    def ty(s):
        t=s.pk()
        if t=='<':
            s.nx(); a=s.ty(); s.ex('as'); s.ty(); s.ex('>'); s.ex('::'); d=s.nx()
            if d!='Dual': raise Bad('assoc '+d)
            return ('dual',a)
        if t=='(':
            s.nx(); xs=[]
            while s.pk()!=')':
                xs.append(s.ty())
                if s.pk()==',': s.nx()
            s.nx(); return ('val','('+', '.join(show(x) for x in xs)+')')
        if t=='&':
            s.nx()
            if s.pk() and s.pk().startswith("'"): s.nx()
            return ('val','&'+show(s.ty()))
        if t=='[':
            d=0;o=''
            while True:
                x=s.nx();o+=x
                if x=='[':d+=1
                if x==']':
                    d-=1
                    if d==0:break
            return ('val',o)
        if t is None: raise Bad('eof')
        if t in('dyn','impl'):
            s.nx(); return s.ty()
        if re.match(r"'.'|-?[0-9]|true|false",t): s.nx(); return ('lit',t)
        if t.startswith("'"): s.nx(); return ('lit',t)
        if not re.match(r'[A-Za-z_]',t): raise Bad('tok '+t)
        name=s.nx()
        while s.pk()=='::':
            s.nx(); name=s.nx()
        args=[]
        if s.pk()=='<':
            s.nx()
            while s.pk()!='>':
                args.append(s.ty())
                if s.pk()==',': s.nx()
            s.nx()
        return ('app',name,args)
def show(t):
    if t[0]=='app': return t[1]+('<'+', '.join(map(show,t[2]))+'>' if t[2] else '')
    if t[0] in('val','lit'): return t[1]
    return 'dual '+show(t[1])
def line(src,pos): return src.count('\n',0,pos)+1
def balanced(src,i,o,c):
    d=0
    for j in range(i,len(src)):
        if src[j]==o:d+=1
        elif src[j]==c:
            d-=1
            if d==0:return j
    raise Bad('unbalanced')
def params(s):
    return [re.match(r'\s*(?:const\s+)?(\w+)',p).group(1) for p in s.split(',') if p.strip()] if s else []
def load(fn):
    raw=open(fn).read(); src=strip(raw)
    E={'alias':{},'enum':{},'fn':{},'src':src,'file':fn}
    for m in re.finditer(r'\btype\s+(\w+)\s*(?:<([^=]*?)>)?\s*=\s*',src):
        j=src.index(';',m.end())
        try: E['alias'][m.group(1)]=(params(m.group(2)),P(toks(src[m.end():j])).ty(),line(src,m.start()),line(src,j))
        except Bad as e: E['alias'][m.group(1)]=('bad',str(e),0,0)
    for m in re.finditer(r'\benum\s+(\w+)\s*(?:<([^{]*?)>)?\s*(?:where[^{]*)?\{',src):
        j=balanced(src,m.end()-1,'{','}')
        body=src[m.end():j]; vs=[]
        k=0
        for v in re.finditer(r'(\w+)\s*\(',body):
            if v.start()<k: continue
            e=balanced(body,v.end()-1,'(',')'); k=e
            try: t=P(toks(body[v.end():e])).ty()
            except Bad as ex: t=('bad',str(ex))
            vs.append((v.group(1),t,line(src,m.end()+v.start()),line(src,m.end()+e)))
        if vs: E['enum'][m.group(1)]=(params(m.group(2)),vs,line(src,m.start()),line(src,j))
    for m in re.finditer(r'\bfn\s+(\w+)\s*(?:<[^(]*>)?\s*\(',src):
        j=balanced(src,m.end()-1,'(',')'); E['fn'][m.group(1)]=(src[m.end():j],line(src,m.start()),m.start())
    # roles
    m=re.search(r'generate!\s*\(\s*"[^"]*"\s*,\s*(\w+)\s*,([^)]*)\)',src) or re.search(r'generate_atmp!\s*\(\s*(\w+)\s*,([^)]*)\)',src)
    E['roles']={};E['names']={}
    if m:
        E['mesh']=m.group(1); rs=[r.strip() for r in m.group(2).split(',') if r.strip()]
        if not all(re.fullmatch(r'\w+',r) for r in rs): raise Bad('roles '+str(rs))
        for i,r in enumerate(rs): E['roles']['Role'+r]=i+1; E['names']['Name'+r]=i+1
        E['n']=len(rs); E['rl']=rs; E['style']='generate'
    else:
        m=re.search(r'bundle_struct_fork_close_multi!\s*\(\s*\w+\s*,\s*\w+\s*,\s*(\w+)\s*,\s*(\d+)\s*\)',src) or re.search(r'create_meshedchannels!\s*\(\s*(\w+)\s*,\s*(\d+)\s*\)',src)
        if m: E['mesh']=m.group(1);E['n']=int(m.group(2))
        elif 'MeshedChannels' in src: E['mesh']='MeshedChannels';E['n']=3
        else: raise Bad('no mesh')
        rs=[]
        for m in re.finditer(r'create_multiple_normal_role!\s*\(([^)]*)\)',src):
            for g in m.group(1).split('|'):
                if g.strip(): rs.append(re.split(r'[,\s]+',g.strip())[0])
        for m in re.finditer(r'create_multiple_normal_role_short!\s*\(([^)]*)\)',src):
            rs+=['Role'+x.strip() for x in m.group(1).split(',') if x.strip()]
        ns=[]
        for m in re.finditer(r'create_multiple_normal_name!\s*\(([^)]*)\)',src): ns+=[x.strip() for x in m.group(1).split(',') if x.strip()]
        for m in re.finditer(r'create_multiple_normal_name_short!\s*\(([^)]*)\)',src): ns+=['Name'+x.strip() for x in m.group(1).split(',') if x.strip()]
        if not rs: rs=['RoleA','RoleB','RoleC']
        if not ns: ns=['NameA','NameB','NameC']
        # sort? order in fork is index order; names in given order
        for i,r in enumerate(rs): E['roles'][r]=i+1
        for i,r in enumerate(ns): E['names'][r]=i+1
        E['rl']=[x[4:] if x.startswith('Name') else x for x in ns]; E['style']='manual'
        if len(rs)<E['n'] or len(ns)<E['n']: raise Bad('roles %s names %s n %d'%(rs,ns,E['n']))
    return E
def subst(t,s):
    if t[0]=='app':
        if t[1] in s and not t[2]: return s[t[1]]
        return ('app',t[1],[subst(a,s) for a in t[2]])
    if t[0]=='dual': return ('dual',subst(t[1],s))
    if t[0]=='val' : return t
    return t
def unalias(E,t):
    k=0
    while t[0]=='app' and t[1] in E['alias']:
        ps,b,_,_=E['alias'][t[1]]
        if ps=='bad': raise Bad(b)
        t=subst(b,dict(zip(ps,t[2]))); k+=1
        if k>100: raise Bad('loop')
    return t
def dual(s):
    if s=='End': return s
    return ('R' if s[0]=='S' else 'S',s[1],dual(s[2]))
def sess(E,t):
    t=unalias(E,t)
    if t[0]=='dual': return dual(sess(E,t[1]))
    if t[0]!='app': raise Bad('session '+str(t))
    if t[1]=='End': return 'End'
    if t[1] in('Send','Recv','SendTimed','RecvTimed'):
        d='S' if t[1].startswith('Send') else 'R'
        p=unalias(E,t[2][0])
        if p[0]=='app' and p[1] in E['enum']: pl=('C',p[1],tuple(show(unalias(E,a)) for a in p[2]))
        elif p[0]=='app' and p[1]=='Either': pl=('E',show(p))
        else: pl=('V',show(p))
        return (d,pl,sess(E,t[2][-1]))
    raise Bad('session head '+t[1])
def stk(E,t):
    t=unalias(E,t)
    if t[0]=='dual': return ('dualstack',stk(E,t[1]))
    if t[0]!='app': raise Bad('stack '+str(t))
    if t[1]=='RoleEnd': return ('E',)
    if t[1]=='RoleBroadcast': return ('B',)
    if t[1] in E['roles']: return ('R',E['roles'][t[1]],stk(E,t[2][0]))
    raise Bad('stack head '+t[1])
def mc(E,t):
    t=unalias(E,t)
    if t[0]!='app' or t[1]!=E['mesh']: raise Bad('not mesh: '+show(t))
    a=t[2]
    if len(a)!=E['n']+1: raise Bad('arity %d'%len(a))
    nm=unalias(E,a[-1])
    return E['names'][nm[1]],[sess(E,x) for x in a[:-2]],stk(E,a[-2])
def fpos(p,x): return x-1 if x<p else x-2
def encl_fn(E,pos):
    best=None
    for f,(a,l,p) in E['fn'].items():
        if p<pos and (best is None or p>best[0]): best=(p,f)
    return best and best[1]
def body_stack(E,pos):
    src=E['src']; d=0; j=pos
    while j<len(src):
        if src[j]=='{':d+=1
        if src[j]=='}':
            d-=1
            if d<0: break
        j+=1
    body=src[pos:j]; acts=[]; tail=None
    low={r.lower():i+1 for i,r in enumerate(E['rl'])}
    for m in re.finditer(r'\b(\w+)\s*\(',body):
        f=m.group(1)
        g=re.fullmatch(r'(?:send|recv)_(?:\w+_)?(?:to|from)_(\w+)',f)
        if g and g.group(1) in low: acts.append(low[g.group(1)]); continue
        if f.startswith('close'): tail=('E',); break
        if f in E['fn'] and re.match(r'\s*s\b',body[m.end():]):
            t=P(toks(E['fn'][f][0].split(':',1)[1])).ty(); tail=mc(E,t)[2]; break
    if tail is None: return None
    for a in reversed(acts): tail=('R',a,tail)
    return tail
def choose_calls(E):
    src=E['src']; out=[]
    for m in re.finditer(r'\bchoose_\w*!\s*\(',src):
        j=balanced(src,m.end()-1,'(',')')
        body=src[m.end():j]
        vs=re.findall(r'(\w+)(?:::<[^>]*>)?::(\w+)\s*[,\n=]*',body.split('=>')[0])
        vs=[v for v in vs if v[0] in E['enum']]
        if not vs: continue
        pre=src[:m.start()]
        a=re.search(r'let\s+(?:mut\s+)?\w+\s*(?::\s*([^=;]*?))?\s*=\s*$',pre)
        ann=None
        if a and a.group(1): ann=P(toks(a.group(1))).ty()
        out.append((vs,ann,line(src,m.start()),line(src,j),j+1))
    return out
def concat_calls(E):
    src=E['src']
    m=re.search(r'checker_concat!\s*\(',src)
    if not m: return None
    j=balanced(src,m.end()-1,'(',')'); body=src[m.end():j]
    head,_,tail=body.partition('=>')
    parts=[x.strip() for x in re.split(r',(?![^<]*>)',head) if x.strip()]
    ends=[P(toks(x)).ty() for x in parts if not x.startswith('"')]
    out=[]
    for g in re.finditer(r'\[([^\]]*)\]',tail):
        xs=[x.strip() for x in re.split(r',(?![^<]*>)',g.group(1)) if x.strip()]
        out.append(([(xs[i].split('<')[0].replace('::',''),xs[i+1]) for i in range(1,len(xs),2)],P(toks(xs[0])).ty(),line(src,m.end()+len(head)+2+g.start()),line(src,m.end()+len(head)+2+g.end())))
    return ends,out,line(src,m.start()),line(src,j)
def start(E):
    src=E['src']
    cc=concat_calls(E)
    if cc and not re.search(r'fork_mpst\w*\s*\(',src):
        T={};L={}
        for t in cc[0]:
            r,ss,st=mc(E,t)
            if r in T: raise Bad('role twice')
            T[r]=(ss,st); L[r]=('checker_concat!',show(t),cc[2])
        E['concat']=cc[1]
        return T,L
    best=None
    for m in re.finditer(r'\bfork_\w+\s*\(|\bfork_mpst\s*\(',src):
        if re.search(r'fn\s+$',src[:m.start()]): continue
        j=balanced(src,m.end()-1,'(',')')
        args=[x.strip() for x in src[m.end():j].split(',') if x.strip()]
        if len(args)==E['n'] and all(a in E['fn'] for a in args): best=args;break
    if not best: raise Bad('no fork')
    T={}
    L={}
    for a in best:
        pa=E['fn'][a][0]; ts=pa.split(':',1)[1]
        p=P(toks(ts)); t=p.ty()
        r,ss,st=mc(E,t); 
        if r in T: raise Bad('role twice')
        T[r]=(ss,st); L[r]=(a,show(t),E['fn'][a][1])
    return T,L
def guess_stack(E,p,ss):
    n=E['n']
    if all(s=='End' for s in ss): return ('E',)
    def isch(s): return s!='End' and s[0]=='S' and s[1][0]=='C'
    if all(isch(s) for s in ss): return ('B',)
    nz=[i for i,s in enumerate(ss) if s!='End']
    if len(nz)==1:
        x=[q for q in range(1,n+1) if q!=p][nz[0]]
        def go(s):
            if s=='End': return ('E',)
            if s[0]=='S' and s[1][0]=='C':
                if n==2: return ('B',)
                raise Bad('guess')
            return ('R',x,go(s[2]))
        return go(ss[nz[0]])
    raise Bad('cannot guess stack of role %d: %s'%(p,ss))
def translate(fn):
    E=load(fn)
    T,L=start(E)
    n=E['n']; calls=E.get('concat') or choose_calls(E)
    groups={}  # first enum -> group
    B={} # key tuple of enums -> {tuple of variants: ann}
    for vs,ann,l1,l2,*pos in calls:
        k=tuple(v[0] for v in vs); B.setdefault(k,{}).setdefault(tuple(v[1] for v in vs),[]).append((ann,l1,l2,pos))
    enum_group={}
    for k in B:
        for e in k:
            if e in enum_group and enum_group[e]!=k: raise Bad('enum in two groups %s'%e)
            enum_group[e]=k
    # worklist of choices
    order=[]; res={}
    def visit(ch,recv):
        # ch: enum name,args
        e,args=ch
        if e not in enum_group: raise Bad('enum %s never chosen'%e)
        k=(enum_group[e],args)
        if k not in order: order.append(k)
        return order.index(k)
    def scan(T):
        for p in T:
            for s in T[p][0]:
                while s!='End':
                    if s[1][0]=='C': visit((s[1][1],s[1][2]),p)
                    s=s[2]
    scan(T)
    i=0; rounds=[]
    while i<len(order):
        k,args=order[i]; i+=1
        labs=[]
        first=E['enum'][k[0]]
        for vi,(vn,_,_,_) in enumerate(first[1]):
            tup=[t for t in B[k] if t[0]==vn]
            if len(tup)>1: raise Bad('several tuples for '+vn)
            if tup: tup=tup[0]; anns=B[k][tup]
            else: tup=tuple(vn for _ in k); anns=[]
            R={};lines=[]
            for e,v in zip(k,tup):
                ps,vs,_,_=E['enum'][e]
                hit=[x for x in vs if x[0]==v]
                if not hit: raise Bad('no variant %s %s'%(e,v))
                if hit[0][1][0]=='bad': raise Bad(hit[0][1][1])
                r,ss,st=mc(E,subst(hit[0][1],dict(zip(ps,[P(toks(a)).ty() for a in args]))))
                if r in R: raise Bad('two for role')
                R[r]=(ss,st); lines.append((r,e,v,hit[0][2],hit[0][3]))
            rest=[p for p in range(1,n+1) if p not in R]
            if len(rest)!=1: raise Bad('chooser? %s %s'%(k,rest))
            c=rest[0]
            ss=[]
            for q in range(1,n+1):
                if q!=c: ss.append(dual(R[q][0][fpos(q,c)]))
            st=None; how=None
            stacks=set()
            for ann,l1,l2,_ in anns:
                if ann:
                    r2,ss2,st2=mc(E,ann)
                    if r2!=c: raise Bad('ann role')
                    if ss2!=ss:
                        if os.environ.get('ANN'): ss=ss2
                        else: raise Bad('ann differs: %s vs %s'%(ss2,ss))
                    stacks.add(st2); how=show(ann)
            if len(stacks)>1: raise Bad('several stacks')
            if stacks: st=stacks.pop()
            else:
                how='inferred'
                try: st=guess_stack(E,c,ss)
                except Bad:
                    sts={body_stack(E,pos[0]) for _,_,_,pos in anns if pos}
                    if len(sts)!=1 or None in sts: raise
                    st=sts.pop()
            R[c]=(ss,st)
            scan(R)
            labs.append((vn,R,c,how,lines,[(l1,l2) for _,l1,l2,_ in anns]))
        rounds.append((k,args,labs))
    E['T']=T;E['L']=L;E['rounds']=rounds;E['order']=order;E['enum_group']=enum_group
    return E
# python check
def script(E,p,ss,st):
    ss=list(ss);out=[]
    while True:
        if st[0]=='E':
            return out+[('close',)] if all(s=='End' for s in ss) else None
        if st[0]=='B':
            if all(s!='End' and s[0]=='S' and s[1][0]=='C' for s in ss): return out+[('choose',)]
            return None
        if st[0]!='R': return None
        x=st[1]
        if x==p: return None
        f=fpos(p,x); s=ss[f]
        if s=='End': return None
        if s[1][0]=='V':
            out.append(('send' if s[0]=='S' else 'recv',x)); ss[f]=s[2]; st=st[2]
        elif s[0]=='R' and s[2]=='End':
            rest=[t for i,t in enumerate(ss) if i!=f and t!='End']
            return out+[('offer',x,bool(rest),st[2])]
        else: return None
def check(E,T):
    n=E['n']; issues=[]
    for p in T:
        for q in T:
            if p<q and dual(T[p][0][fpos(p,q)])!=T[q][0][fpos(q,p)]: issues.append('not dual %d %d: %s | %s'%(p,q,T[p][0][fpos(p,q)],T[q][0][fpos(q,p)]))
    S={p:script(E,p,*T[p]) for p in T}
    for p in S:
        if S[p] is None: issues.append('no script %d %s'%(p,T[p]))
        elif S[p][-1][0]=='offer' and S[p][-1][2]: issues.append('untidy %d'%p)
        if S[p] and S[p][-1][0]=='offer' and S[p][-1][3]!=('E',): issues.append('rest stack after offer %d %s'%(p,S[p][-1][3]))
    if any(S[p] is None for p in S): return issues
    pos={p:0 for p in S}
    def meets(a,x): return a[0]=='choose' or (a[0] in('send','recv','offer') and a[1]==x)
    def upto(p,x): return sum(1 for a in S[p][:pos[p]] if meets(a,x))
    while True:
        done=True;moved=False
        for p in S:
            if pos[p]<len(S[p]):
                done=False
                a=S[p][pos[p]]
                if a[0] in('recv','offer') and not upto(p,a[1])<upto(a[1],p): continue
                pos[p]+=1;moved=True
        if done: return issues
        if not moved: return issues+['STUCK at %s'%{p:S[p][pos[p]:] for p in S}]
if __name__=='__main__':
    ok=0
    for fn in sys.argv[1:]:
        try:
            E=translate(fn)
            iss=check(E,E['T'])
            for k,a,labs in E['rounds']:
                for l in labs:
                    x=check(E,l[1])
                    iss+=[k[0]+'::'+l[0]+' '+y for y in x]
            if iss: print(fn,'n=%d'%E['n'],'ISSUES',iss)
            else: ok+=1; print(fn,'ok n=%d choices=%d'%(E['n'],len(E['rounds'])))
        except Bad as e: print(fn,'BAD',e)
        except Exception as e: print(fn,'EXC',type(e).__name__,e)
    print('ok',ok)
