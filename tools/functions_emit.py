# Reads the send and receive functions that the programs in /repo declare (create_send_mpst_session! and relatives) and
# writes theories/FnCorpus.v. The order of the roles is the one for which all indices of the file are the fields of the
# peers, if there is one (alphabetical order is tried first); it was compared with the calls of the fork macros.
import re,os,collections,itertools
rows=[]
for base in ('tests','examples','benches'):
    for d,_,fs in os.walk('/repo/'+base):
        for f in fs:
            if not f.endswith('.rs'): continue
            p=os.path.join(d,f); t=open(p).read()
            t2=re.sub(r'//[^\n]*','',t)
            for m in re.finditer(r'\b(create_(?:send|recv)_(?:mpst_session|mpst_cancel|check_cancel)(?:_bundle)?(?:_[12])?)!\s*[\(\{]([^;]*?)[\)\}];',t2):
                k=m.group(1); b=m.group(2)
                if k.endswith('bundle'):
                    ents,tail=b.split('=>')
                    own,mesh,n=[x.strip() for x in tail.strip().strip(',').split(',')][:3]
                    for e in ents.split('|'):
                        e=[x.strip() for x in e.strip().strip(',').split(',') if x.strip()]
                        if not e: continue
                        rows.append((p[6:],k.replace('_bundle',''),e[0],e[1],own,mesh,int(n),int(e[2])))
                else:
                    a=[x.strip() for x in b.split(',')]
                    if k.endswith('_1') or k.endswith('_2'):
                        rows.append((p[6:],k[:-2],a[0],a[1],a[2],'MeshedChannels',3,int(k[-1])))
                    else: rows.append((p[6:],k,a[0],a[1],a[2],a[3],int(a[4]),int(a[5])))
files=collections.defaultdict(list)
for r in rows: files[r[0]].append(r)
def nm(x): return re.sub('^(Role|Name)','',x)
bad=[];pos={}
for f,rs in sorted(files.items()):
    names=sorted({nm(r[3]) for r in rs}|{nm(r[4]) for r in rs}); n=rs[0][6]
    ok=None
    cands=[list(range(1,len(names)+1)), list(range(n-len(names)+1,n+1))]
    if n<=6: cands+= [list(p) for p in itertools.permutations(range(1,n+1),len(names))]
    for c in cands:
        P=dict(zip(names,c))
        if all((P[nm(r[3])] - (1 if P[nm(r[3])]>P[nm(r[4])] else 0))==r[7] and r[6]==n for r in rs): ok=P;break
    if ok is None:
        best=min(cands[:],key=lambda c:sum((dict(zip(names,c))[nm(r[3])] - (1 if dict(zip(names,c))[nm(r[3])]>dict(zip(names,c))[nm(r[4])] else 0))!=r[7] for r in rs))
        P=dict(zip(names,best))
        w=[r[1:] for r in rs if (P[nm(r[3])] - (1 if P[nm(r[3])]>P[nm(r[4])] else 0))!=r[7]]
        print("BAD",f,names,n,len(w),len(rs),w[:6])
    else:
        pos[f]=ok
        if list(ok.values())!=list(range(1,n+1)): print("ok",f,ok,n)
print(len(pos),len(rows))
K={'create_send_mpst_session':'KSend','create_send_mpst_cancel':'KCancel','create_send_check_cancel':'KCheck','create_recv_mpst_session':'KRecv'}
groups=collections.OrderedDict()
for f,rs in sorted(files.items()):
    n=rs[0][6]; P=pos[f]
    inv={v:k for k,v in P.items()}
    roles=[inv.get(i,{'1':'Broadcaster'}.get(str(i),'?%d'%i) if min(P.values())==2 and i==1 and 'cancel' in f else 'Role%d'%i) for i in range(1,n+1)]
    b=[]
    for r in rs:
        k=(K[r[1]],P[nm(r[4])])
        if b and b[-1][0]==k: b[-1][1].append((P[nm(r[3])],r[7]))
        else: b.append((k,[(P[nm(r[3])],r[7])]))
    t=open('/repo/'+f).read().split('\n')
    ls=[i+1 for i,l in enumerate(t) if re.search(r'\bcreate_(?:send|recv)_(?:mpst_session|mpst_cancel|check_cancel)(?:_bundle)?(?:_[12])?!',l)]
    last=ls[-1]
    while last<len(t) and ';' not in t[last-1]: last+=1
    key=(tuple(roles),tuple((k,tuple(x)) for k,x in b))
    groups.setdefault(key,[]).append("%s:%d-%d"%(f,ls[0],last))
out=[]
w=out.append
w('''(** The send and receive functions that the programs of the repository declare with the macros of FnForms.v: 169 files,
    12265 functions. Roles are in the order in which the fork macro of the file takes its functions (a role that declares
    none is called Role{i}; the broadcaster of the cancelling programs comes first); a declaration names the peer by its
    position, and has the index written in the file. *)
From Coq Require Import List String.
Import ListNotations.
Open Scope string_scope.

(** create_send_mpst_session(_bundle)!, create_send_mpst_cancel(_bundle)!, create_send_check_cancel(_bundle)!,
    create_recv_mpst_session(_bundle)! (src/macros_multiple/send.rs:43-61, 99-117, 169-187, 234-247, 294-307, 377-390,
    recv.rs:43-61, 109-122; src/macros_simple/send.rs:36-47, 77-88, recv.rs:34-45, 76-87). *)
Inductive kind := KSend | KCancel | KCheck | KRecv.

(** A bundle: kind, role of the functions, then peer and index of each (src/macros_multiple/send.rs:234-247). *)
Definition bundle : Type := (kind * nat * list (nat * nat))%type.
(** A program: its roles and its bundles (the files are named above each program). *)
Record program := Program { p_roles : list string; p_bundles : list bundle }.
''')
names=[]
for j,((roles,b),fs) in enumerate(groups.items()):
    nmj='fns_%02d'%j; names.append(nmj)
    w('(** '+',\n    '.join(fs)+'. *)')
    w('Definition %s : program := Program [%s]'%(nmj,'; '.join('"%s"'%r for r in roles)))
    w('  [%s].'%(';\n   '.join('(%s, %d, [%s])'%(k[0],k[1],'; '.join('(%d, %d)'%x for x in e)) for k,e in b)))
w('')
w('(** All of them. *)')
w('Definition programs : list program := [%s].'%'; '.join(names))
open('/verif/rocq/theories/FnCorpus.v','w').write('\n'.join(out)+'\n')
print(len(groups)); import os; print(os.path.getsize('/verif/rocq/theories/FnCorpus.v'))
print([k[0] for k in groups][:80:8])
