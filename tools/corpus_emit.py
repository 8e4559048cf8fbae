# Writes theories/Corpus.v, CorpusRing.v, CorpusMesh.v and CorpusUnfit.v. Run: python3 tools/corpus_emit.py (needs /repo).
import sys,os,re,collections
sys.path.insert(0,os.path.dirname(os.path.abspath(__file__)))
import corpus_group as group, corpus_read as tr
out,bad=group.all_files()
def pref(fn):
    order=['examples/mpst/','examples/readme','examples/checking/','examples/ring/','examples/mesh/','examples/artifact/','examples/basic','examples/ampst','examples/rate_based_ampst','examples/atmp','examples/']
    for i,o in enumerate(order):
        if fn.startswith(o): return (i, 0 if fn.endswith('_mpst.rs') else 1, fn)
    return (99,0,fn)
def ident(fn):
    b=os.path.basename(fn)[:-3]
    b=re.sub(r'_baking_(mpst|ampst|atmp|cancel_inline)','',b)
    b=re.sub(r'(?<!^)(?=[A-Z])','_',b).lower()
    return b
def al(E,t):
    "lines of the alias or fn"
    a=t.split('<')[0]
    if a in E['alias']: return '%s, :%d%s'%(a,E['alias'][a][2],'' if E['alias'][a][2]==E['alias'][a][3] else '-%d'%E['alias'][a][3])
    return None
def rng(a,b): return ':%d'%a if a==b else ':%d-%d'%(a,b)
def emit_one(fn,E,start,ch,vals,nm,v):
    others=[x[0] for x in v[1:]]
    short=lambda f:f
    cm='%s. Roles: %s.'%(fn,', '.join('%d = %s'%(i+1,r) for i,r in enumerate(E['rl'])) )
    if vals: cm+=' Payloads: %s.'%', '.join('%d = %s'%(i,t) for t,i in vals.items())
    lines=[]
    def add(s): lines.append(s)
    # choices comment
    for b,(kk,args,labs) in enumerate(E['rounds']):
        cm+=' Choice %d: %s chooses (%s): %s.'%(b,E['rl'][labs[0][2]-1],', '.join('%s, %s'%(e,rng(E['enum'][e][2],E['enum'][e][3])) for e in kk) if len(kk)<=6 else '%s, %s and so on'%(kk[0],rng(E['enum'][kk[0]][2],E['enum'][kk[0]][3])),', '.join('%d = %s'%(i,l[0]) for i,l in enumerate(labs)))
    if others: cm+=' The same types: %s.'%', '.join(others)
    cm=cm.replace('(*','( *').replace('"',"'")
    def wrap(s,ind,w=118):
        import textwrap
        return ('\n'+ind).join(textwrap.wrap(s,w,break_long_words=False,break_on_hyphens=False))
    txt='(** '+wrap(cm,'    ')+' *)\n'
    txt+='Definition %s : proto := mkproto\n'%nm
    n=E['n']; ss=[]
    for p in range(1,n+1):
        f,t,l=E['L'][p]; a=al(E,t) or '%s, :%d'%(f,l)
        ss.append('    (* %s: %s *) %s'%(E['rl'][p-1],a,start[p-1]))
    txt+='  [\n'+';\n'.join(ss)+'\n  ]\n'
    cs=[]
    for b,(kk,args,labs) in enumerate(E['rounds']):
        ls=[]
        for i,(vn,R,c,how,lns,calls) in enumerate(labs):
            byrole={r:(e,x,l1,l2) for r,e,x,l1,l2 in lns}
            rs=[]
            for p in range(1,n+1):
                if p==c:
                    a=al(E,how) if how!='inferred' else None
                    if a is None: a=('as used after %s'%rng(*calls[0])) if calls else 'not chosen'
                    cmt='%s: %s'%(E['rl'][p-1],a)
                else:
                    e,x,l1,l2=byrole[p]; cmt='%s: %s'%(E['rl'][p-1],rng(l1,l2))
                rs.append('      (* %s *) %s'%(cmt,ch[b][i][p-1]))
            ls.append('    (* %d.%d %s *) [\n'%(b,i,vn)+';\n'.join(rs)+']')
        cs.append('  [\n'+';\n'.join(ls)+'\n  ]')
    txt+='  [' +(';'.join(cs).lstrip() if cs else '')+'].\n'
    return txt,n
groups={'Corpus':[], 'CorpusRing':[], 'CorpusMesh':[]}
names=set()
for k,v in out.items():
    v=sorted(v,key=lambda x:pref(x[0]))
    fn,E,(start,ch,vals)=v[0]
    nm=ident(fn)
    if nm in names or nm in('basic','simple'): 
        nm={'examples/artifact/basic.rs':'artifact_basic','examples/artifact_atmp/basic.rs':'artifact_atmp_basic','examples/atmp/three_buyers.rs':'atmp_three_buyers','examples/atmp/travel_agency.rs':'atmp_travel_agency','examples/checking/basic.rs':'checking_basic'}.get(fn,None) or nm+'_'+fn.split('/')[-2]
    assert nm not in names,(nm,fn); names.add(nm)
    g='CorpusRing' if '/ring/' in fn else 'CorpusMesh' if '/mesh/' in fn else 'Corpus'
    txt,n=emit_one(fn,E,start,ch,vals,nm,v)
    groups[g].append((pref(fn),nm,txt,n))
num={'two':2,'three':3,'four':4,'five':5,'six':6,'seven':7,'eight':8,'nine':9,'ten':10,'eleven':11,'twenty':20}
heads={'Corpus':'(** The protocols written out in examples/ and tests/ of the repository, as tables of types. Each was transcribed from the file\n    named first; the files named last declare the same types up to the names of payloads, branches and roles, the constants of\n    [SendTimed] and [RecvTimed] (examples/atmp, examples/rate_based_atmp, tests/baking_atmp_mod) left out. Model only. *)',
'CorpusRing':'(** The ring benchmarks of examples/ring, as tables of types (see Corpus.v). Model only. *)',
'CorpusMesh':'(** The mesh benchmarks of examples/mesh, as tables of types (see Corpus.v). Model only. *)'}
for g,l in groups.items():
    l.sort(key=lambda x:(x[3] if g!='Corpus' else 0,x[0]))
    s=heads[g]+'\nFrom Coq Require Import List.\nFrom Verif Require Import Types Session Mesh Proto.\nImport ListNotations.\n\n'
    s+='\n'.join(x[2] for x in l)
    allnm={'Corpus':'corpus','CorpusRing':'rings','CorpusMesh':'meshes'}[g]
    import textwrap
    s+='\n(** All of them: %s. *)\nDefinition %s : list proto :=\n  ['%({'Corpus':'examples/ and tests/ except the benchmarks','CorpusRing':'examples/ring','CorpusMesh':'examples/mesh'}[g],allnm)+'\n   '.join(textwrap.wrap('; '.join(x[1] for x in l),118))+'].\n'
    open(''+os.path.dirname(os.path.abspath(__file__))+'/../rocq/theories/%s.v'%g,'w').write(s)
    print(g,len(l),len(s))

os.environ['ANN']='1'
rj=[]
for f in ['alternating_bit','async_paper_ext_rev_sync','cloud_system','inf_snd_rcv']:
    fn='tests/checking_mod/complex/%s.rs'%f
    if f.startswith('async'):
        old=tr.load
        def load2(x,old=old):
            E=old(x); E['roles']={'RoleC':1,'RoleM':2,'RoleS':3}; E['names']={'NameC':1,'NameM':2,'NameS':3}; E['rl']=['C','M','S']; return E
        tr.load=load2
    E=tr.translate(fn)
    if f.startswith('async'): tr.load=old
    st,ch,vals=group.canon(E)
    txt,n=emit_one(fn,E,st,ch,vals,f,[(fn,E,None)])
    rj.append((f,txt))
    iss=tr.check(E,E['T'])
    for k,a,labs in E['rounds']:
        for l in labs: iss+=[k[0]+'::'+l[0]+' '+x for x in tr.check(E,l[1])]
    print(f,iss)
s='(** Protocols of tests/checking_mod that no mesh of the library can run: see Properties_Corpus.v. The types of the role that\n    chooses are those given to [checker_concat!]. Model only. *)\nFrom Coq Require Import List.\nFrom Verif Require Import Types Session Mesh Proto.\nImport ListNotations.\n\n'
s+='\n'.join(t for _,t in rj)
s+='\n(** All of them: tests/checking_mod/complex. *)\nDefinition unfit : list proto := [%s].\n'%'; '.join(f for f,_ in rj)
open(''+os.path.dirname(os.path.abspath(__file__))+'/../rocq/theories/CorpusUnfit.v','w').write(s)
