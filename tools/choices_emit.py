# Reads the choices with an explicit index that the programs in /repo make and writes theories/ForkCorpus.v. Files whose
# roles are not known from functions_emit.py are left out.
import io,contextlib,sys
src=open('/verif/tools/functions_emit.py').read().split("K={'create_send")[0]
with contextlib.redirect_stdout(io.StringIO()): exec(src)
fnfiles=files; fnpos=pos
import re,os,collections
pat=re.compile(r'\b(choose_mpst_multi_to_all|choose_atmp_multi_to_all|choose_mpst_multi_cancel_to_all|choose_mpst_create_multi_to_all|choose_atmp_mpst_create_multi_to_all|create_fn_choose_mpst_multi_to_all_bundle|create_fn_choose_mpst_cancel_multi_to_all_bundle|create_choose_mpst_session_multi\w*|choose_mpst_to_all|choose_mpst_\w+_to_all)!')
cnt=collections.Counter(); files=collections.defaultdict(list)
def body(t,i):
    # i at '!' end ; find matching bracket
    while t[i] not in '([{': i+=1
    o=t[i]; d=0; j=i
    while True:
        if t[j] in '([{': d+=1
        elif t[j] in ')]}':
            d-=1
            if d==0: return t[i+1:j]
        j+=1
for base in ('tests','examples','benches'):
    for d,_,fs in os.walk('/repo/'+base):
        for f in fs:
            if not f.endswith('.rs'): continue
            p=os.path.join(d,f); t=re.sub(r'//[^\n]*','',open(p).read())
            for m in pat.finditer(t):
                k=m.group(1); b=body(t,m.end())
                cnt[k]+=1
                files[k].append((p[6:],b))
uses=[]; un=[]
def parts(b): return [[x.strip() for x in g.strip().strip(',').split(',') if x.strip()] for g in b.split('=>')]
for k in ('choose_mpst_multi_to_all','choose_mpst_multi_cancel_to_all','choose_mpst_create_multi_to_all','create_fn_choose_mpst_multi_to_all_bundle','create_fn_choose_mpst_cancel_multi_to_all_bundle','create_choose_mpst_session_multi_both'):
    for f,b in files[k]:
        P=parts(b)
        if k=='choose_mpst_multi_to_all': snd,excl=P[-1][0],int(P[-1][2]); rec=None; nrec=len(P[0])-1
        elif k=='choose_mpst_multi_cancel_to_all': snd,excl=P[-1][1],int(P[-1][3]); rec=P[1]; nrec=len(rec)
        elif k=='choose_mpst_create_multi_to_all': snd,excl=P[0][1],int(P[0][3]); rec=None; nrec=None
        elif k=='create_fn_choose_mpst_multi_to_all_bundle': snd,excl=P[-1][0],int(P[-1][2]); rec=P[4]; nrec=len(rec)
        elif k.startswith('create_choose'): snd,excl=P[0][4],int(P[0][6]); rec=None;nrec=None
        else: snd,excl=P[-1][1],int(P[-1][3]); rec=P[4]; nrec=len(rec)
        uses.append((k,f,snd,rec,nrec,excl))
raw={}
def lines(f):
    t=open('/repo/'+f).read().split('\n')
    return t
kinds={'choose_mpst_multi_to_all':'Macro','choose_mpst_create_multi_to_all':'Macro','choose_mpst_multi_cancel_to_all':'MacroCancel','create_fn_choose_mpst_multi_to_all_bundle':'Fns','create_fn_choose_mpst_cancel_multi_to_all_bundle':'FnsCancel','create_choose_mpst_session_multi_both':'Macro'}
byf=collections.OrderedDict()
for k,f,snd,rec,nrec,excl in sorted(uses,key=lambda u:u[1]):
    if f not in fnpos: continue
    if k=='create_choose_mpst_session_multi_both': continue
    P=fnpos[f]; n=fnfiles[f][0][6]
    r=[P[nm(x)] for x in rec] if rec else None
    u=(kinds[k],P[nm(snd)],excl,tuple(r) if r else None, nrec)
    byf.setdefault(f,[])
    if u not in byf[f]: byf[f].append(u)
groups=collections.OrderedDict()
for f,us in byf.items():
    n=fnfiles[f][0][6]
    for u in us:
        if u[0].endswith('Cancel'): assert u[4]==n-2,(f,u,n)
        elif u[4] is not None: assert u[4]==n-1,(f,u,n)
    t=lines(f)
    ls=[i+1 for i,l in enumerate(t) if re.search(r'\b(choose_mpst_multi_to_all|choose_mpst_multi_cancel_to_all|choose_mpst_create_multi_to_all|create_fn_choose_mpst_multi_to_all_bundle|create_fn_choose_mpst_cancel_multi_to_all_bundle)!',l)]
    def end(i):
        j=i
        while j<len(t) and not re.match(r'\s*[\)\}];?\s*,?$',t[j-1]) and ';' not in t[j-1]: j+=1
        return j
    cite="%s:%s"%(f,', '.join('%d-%d'%(i,end(i)) for i in ls))
    # drop nrec, duplicates
    key=(n,tuple(sorted(set((u[0],u[1],u[2]) for u in us))))
    groups.setdefault(key,[]).append(cite)
if __name__=='__main__':
    out=[]; w=out.append
    w('''(** The choices that programs of the repository make with an explicit index: %d files. A use is the kind of macro, the position
    of the chooser in the order of the roles, and the index written in the file ([exclusion]). *)
From Coq Require Import List.
Import ListNotations.

(** choose_mpst_multi_to_all! and choose_mpst_create_multi_to_all!, choose_mpst_multi_cancel_to_all!,
    create_fn_choose_mpst_multi_to_all_bundle!, create_fn_choose_mpst_cancel_multi_to_all_bundle!
    (src/macros_multiple/choose.rs:289-305, 362-371, 478-498, 539-561, 603-627). *)
Inductive choice_kind := Macro | MacroCancel | Fns | FnsCancel.

(** Number of roles (with the broadcaster), uses; the files are named above each definition. *)
Definition choice_file : Type := (nat * list (choice_kind * nat * nat))%%type.
'''%len(byf))
    names=[]
    for j,((n,us),fs) in enumerate(groups.items()):
        nmj='choices_%02d'%j; names.append(nmj)
        w('(** '+';\n    '.join(fs)+'. *)')
        w('Definition %s : choice_file := (%d, [%s]).'%(nmj,n,'; '.join('(%s, %d, %d)'%u for u in us)))
    w('')
    w('(** All of them (the files named above). *)')
    w('Definition choice_files : list choice_file := [%s].'%'; '.join(names))
    open('/verif/rocq/theories/ForkCorpus.v','w').write('\n'.join(out)+'\n')
