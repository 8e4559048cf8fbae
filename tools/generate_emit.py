# Reads the uses of generate! and generate_atmp! in the programs of /repo and the choices made with the macros that they write,
# and writes theories/GenCorpus.v. There is one use in each file.
import re,os,collections
def body(t,i):
    while t[i] not in '([{': i+=1
    d=0; j=i
    while True:
        if t[j] in '([{': d+=1
        elif t[j] in ')]}':
            d-=1
            if d==0: return t[i+1:j],j
        j+=1
def blank(t):
    return re.sub(r'//[^\n]*|/\*.*?\*/',lambda m:re.sub(r'[^\n]',' ',m.group(0)),t,flags=re.S)
def args(b):
    out=[];d=0;cur=''
    for c in b:
        if c in '([{': d+=1
        if c in ')]}': d-=1
        if c==',' and d==0: out.append(cur.strip()); cur=''
        else: cur+=c
    if cur.strip(): out.append(cur.strip())
    return out
groups=collections.OrderedDict(); skipped=[]; nfiles=0; nuses=0
for base in ('benches','examples','tests'):
    for d,ds,fs in os.walk('/repo/'+base):
        ds.sort()
        for f in sorted(fs):
            if not f.endswith('.rs'): continue
            p=os.path.join(d,f); t=blank(open(p,errors='replace').read())
            gs=list(re.finditer(r'\b(generate|generate_atmp)!',t))
            if not gs: continue
            if len(gs)>1: skipped.append(p); continue
            g=gs[0]; ln=t.count('\n',0,g.start())+1
            try: b,e=body(t,g.end())
            except IndexError: skipped.append(p); continue
            if '\n\n' in b or ';' in b: skipped.append(p); continue
            end=t.count('\n',0,e)+1
            a=args(b)
            if g.group(1)=='generate_atmp': kind='Atmp'; prots=[(a[0],a[1:])]
            else:
                k=a[0].strip('"')
                kind={'basic':'Basic','recursive':'Recursive','cancel':'Cancel','rec_and_cancel':'RecAndCancel','interleaved':'Interleaved','atmp_interleaved':'AtmpInterleaved'}[k]
                if kind in('Interleaved','AtmpInterleaved'):
                    cut=[i for i,x in enumerate(a) if x.isdigit()]
                    prots=[(a[1],a[2:cut[0]]),(a[cut[0]+1],a[cut[0]+2:cut[1]])]
                else: prots=[(a[1],a[2:])]
            assert all(re.fullmatch(r'\w+',x) for m,r in prots for x in [m]+r),(p,prots)
            uses=set(); bad=False
            own=set(re.findall(r'macro_rules!\s*(\w+)',t))|set(re.findall(r'create_multi_to_all!\s*\(\s*(\w+)',t))
            for m in re.finditer(r'\b(choose_mpst_\w+_to_all)!',t):
                x=m.group(1)
                if x in own or x in('choose_mpst_multi_to_all','choose_mpst_multi_cancel_to_all','choose_mpst_create_multi_to_all'): continue
                c=args(body(t,m.end())[0]); c=[y for y in c if y]
                uses.add((x,len(c)-(2 if kind.startswith('Atmp') else 1)))
                nuses+=1
            nfiles+=1
            key=(kind,tuple((m,tuple(r)) for m,r in prots),tuple(sorted(uses)))
            groups.setdefault(key,[]).append('%s:%s'%(p[6:],ln if ln==end else '%d-%d'%(ln,end)))
q=lambda x:'"%s"'%x
L=lambda l:'['+'; '.join(l)+']'
o=[]
o.append('''(** The uses of [generate!] and [generate_atmp!] in the programs of the repository: %d files.
    For each the form, the MeshedChannels and roles, and the macros with which
    the program chooses with the number of labels: %d choices. *)
From Coq Require Import List String.
Import ListNotations.
Open Scope string_scope.

(** src/baking/mod.rs:99-108, 109-118, 119-128, 129-138, 139-158, 159-179; src/baking_atmp/mod.rs:35-46. *)
Inductive form := Basic | Recursive | Cancel | RecAndCancel | Interleaved | AtmpInterleaved | Atmp.

(** Form, protocols, uses of the macros; the files are named above each definition. *)
Definition generated : Type := (form * list (string * list string) * list (string * nat))%%type.
'''%(nfiles,nuses))
names=[]
for i,(k,fs) in enumerate(groups.items()):
    n='generated_%03d'%i; names.append(n)
    o.append('(** %s. *)'%(';\n    '.join(fs)))
    o.append('Definition %s : generated :=\n  (%s, %s,\n   %s).'%(n,k[0],L(['(%s, %s)'%(q(m),L(map(q,r))) for m,r in k[1]]),L(['(%s, %d)'%(q(x),c) for x,c in k[2]])))
o.append('\n(** All of the above. *)\nDefinition all_generated : list generated :=\n  [%s].'%(';\n   '.join('; '.join(names[i:i+8]) for i in range(0,len(names),8))))
open('/verif/rocq/theories/GenCorpus.v','w').write('\n'.join(o)+'\n')
assert not skipped
print(nfiles,len(groups),nuses,skipped)
