# Brings the types read by corpus_read.py into the form of Proto.v and groups the files that declare the same types.
import sys,os,re,glob
os.chdir('/repo')
sys.path.insert(0,os.path.dirname(os.path.abspath(__file__)))
import corpus_read as tr
def role_of(E,e,args):
    ps,vs,_,_=E['enum'][e]
    return tr.mc(E,tr.subst(vs[0][1],dict(zip(ps,[tr.P(tr.toks(a)).ty() for a in args]))))[0]
def canon(E):
    vals={}; chs={k:i for i,k in enumerate(E['order'])}
    def s(x,p,q):
        # session of p towards q
        if x=='End': return 'End'
        d,pl,k=x
        if pl[0]=='V': a='PVal %d'%vals.setdefault(pl[1],len(vals))
        else:
            b=chs[(E['enum_group'][pl[1]],pl[2])]
            j=role_of(E,pl[1],pl[2])
            a='PChoice %d %d'%(b,j)
        k=s(k,p,q)
        return '%s (%s) %s'%('Snd' if d=='S' else 'Rcv',a,k if k=='End' else '('+k+')')
    def st(x):
        if x[0]=='E': return 'SEnd'
        if x[0]=='B': return 'SBroadcast'
        r=st(x[2]); return 'SRole %d %s'%(x[1],r if ' ' not in r else '('+r+')')
    n=E['n']
    def m(T,p):
        others=[q for q in range(1,n+1) if q!=p]
        r=st(T[p][1])
        return '([%s], %s)'%('; '.join(s(x,p,q) for x,q in zip(T[p][0],others)),r)
    start=[m(E['T'],p) for p in range(1,n+1)]
    ch=[[ [m(l[1],p) for p in range(1,n+1)] for l in labs] for k,a,labs in E['rounds']]
    return start,ch,vals
def all_files():
    out={}
    bad=[]
    for fn in sorted(glob.glob('examples/**/*.rs',recursive=True)+glob.glob('tests/**/*.rs',recursive=True)):
        try:
            E=tr.translate(fn)
            iss=tr.check(E,E['T'])
            for k,a,labs in E['rounds']:
                for l in labs: iss+=tr.check(E,l[1])
            if iss: bad.append((fn,iss)); continue
            c=canon(E); key=(repr(c[0]),repr(c[1]))
            out.setdefault(key,[]).append((fn,E,c))
        except tr.Bad as e: bad.append((fn,str(e)))
        except Exception as e: bad.append((fn,repr(e)))
    return out,bad
if __name__=='__main__':
    out,bad=all_files()
    tot=0
    for k,v in out.items():
        sz=len(k[0])+len(k[1]); tot+=sz
        print(sz,v[0][1]['n'],[x[0] for x in v])
    print(len(out),tot,sum(len(v) for v in out.values()))
