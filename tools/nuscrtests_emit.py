# Reads the tests of the nuscr reader (src/top_down_nuscr/auxiliary_objects/regex_nuscr.rs, tests/nuscr_mod) and writes
# theories/NuscrTests.v: the assertions on lines with random words, the protocols, and the files in the repository that the
# generator wrote for them.
import re
SRC='/repo/src/top_down_nuscr/auxiliary_objects/regex_nuscr.rs'
DIR='/repo/tests/nuscr_mod/'
RE={'check_global':'GLOBAL','check_choice':'CHOICE','check_or':'OR','check_message':'MESSAGE',
    'check_message_with_payload':'MESSAGE_WITH_PAYLOAD','check_message_with_resetting_clock':'MESSAGE_WITH_RESET',
    'check_message_with_payload_and_resetting_clock':'MESSAGE_WITH_PAYLOAD_AND_RESET','check_rec':'REC','check_continue':'CONTINUE'}
WORDS=['random_string','random_string_message','random_string_payload','random_string_sender','random_string_receiver',
       'random_string_clock','random_string_reset']
NUMS=['random_string_left','random_string_right']
def q(s): return '"%s"'%s.replace('"','""')
t=open(SRC).read()
out=['''(** The tests of the nuscr reader: the assertions of regex_nuscr.rs on lines with random words, the protocols of
    tests/nuscr_mod, and the files in the repository that the generator wrote for them. Written by tools/nuscrtests_emit.py. *)
From Coq Require Import String List.
From Verif Require Import Checker Nuscr Regex NuscrText.
Import ListNotations.
Open Scope string_scope.

(** A piece of a format: its text, a random word, a random number (regex_nuscr.rs:89-99). *)
Inductive piece : Type := Txt (s : string) | Word (k : nat) | Number (k : nat).

(** An assertion: the regular expression, the format, whether it must match (regex_nuscr.rs:96-99). *)
Record line_test : Type := LineTest { lt_re : re; lt_text : list piece; lt_match : bool }.

(** The assertions of regex_nuscr.rs:84-626. Words: 0 the only one, 1 the message, 2 the payload, 3 the sender, 4 the receiver,
    5 the clock, 6 the reset clock; numbers: 0 the left bound, 1 the right bound. *)
Definition line_tests : list line_test := [''']
rows=[]
for m in re.finditer(r'assert!\(\s*(!?)(check_\w+)\(\s*(?:&format!\(\s*)?"([^"]*)"((?:\s*,\s*&\w+)*)\s*\)',t):
    neg,fn,fmt,args=m.groups()
    args=re.findall(r'&(\w+)',args); isf='&format!' in m.group(0)
    ps=[];i=0;cur=''
    while i<len(fmt):
        if isf and fmt[i:i+2] in('{{','}}'): cur+=fmt[i]; i+=2
        elif isf and fmt[i:i+2]=='{}':
            if cur: ps.append('Txt '+q(cur)); cur=''
            a=args.pop(0); ps.append('Word %d'%WORDS.index(a) if a in WORDS else 'Number %d'%NUMS.index(a)); i+=2
        else: cur+=fmt[i]; i+=1
    if cur: ps.append('Txt '+q(cur))
    assert not args
    rows.append('  LineTest %s [%s] %s'%(RE[fn],'; '.join(ps),'false' if neg else 'true'))
assert len(rows)==t.count('assert!('),(len(rows),t.count('assert!('))
out.append(';\n'.join(rows)+'].\n')
out.append('''(** A function of a written file, an endpoint (fn_endpoints.rs:7-64, endpoints.rs:23-50). *)
Definition F (r : string) (ix : list nat) (n : nat) (ty : string) (cs : list string) :=
  (lit r, ix, n, lit ty, map lit cs).
Definition E (n : string) (fs : list string) (st r : string) : endpoint :=
  Endpoint (lit n) (map lit fs) (lit st) (lit r).
(** A struct, an enum, a declaration (structs.rs:13-77, enums.rs:9-66, sessions.rs:23-40). *)
Definition U (n : string) : str * option str := (lit n, None).
Definition S1 (n p : string) : str * option str := (lit n, Some (lit p)).
Definition C (n : string) (bs : list string) : str * list str := (lit n, map lit bs).
Definition D (n : string) (b : body) : decl := (lit n, b).
Definition M (snd : bool) (p c l : string) (li : bool) (r : string) (ri : bool) (rs nx : string) : body :=
  Timed snd (lit p) (lit c) (lit l) li (lit r) ri (lit rs) (lit nx).
Definition R (r nx : string) : body := RoleOf (lit r) (lit nx).
Definition A (nx : string) : body := Alias (lit nx).
''')
def emit_lines(name,path):
    ls=open(DIR+path).read().split('\n')
    if ls[-1]=='': ls.pop()
    out.append('(** tests/nuscr_mod/%s:1-%d *)\nDefinition %s : list str := map lit [\n%s].\n'%(path,len(ls),name,';\n'.join('  '+q(l) for l in ls)))
def emit_file(name,path):
    t=open(DIR+path).read(); n=t.count('\n')+1
    roles=re.search(r'generate_atmp!\(MeshedChannels, ([^)]*)\)',t).group(1).split(', ')
    st=[]
    for m in re.finditer(r'^struct (\w+)(?: \{ payload: (\w+) \}|;)$',t,re.M): st.append('U '+q(m.group(1)) if not m.group(2) else 'S1 %s %s'%(q(m.group(1)),q(m.group(2))))
    assert len(st)==len(re.findall(r'^struct',t,re.M))
    ty=[];ep=[]
    for m in re.finditer(r'^type (\w+) = (.*);$',t,re.M):
        a,b=m.groups()
        if b.startswith('MeshedChannels<'):
            fs=b[15:-1].split(', '); assert fs[-1].startswith('Name')
            ep.append('E %s [%s] %s %s'%(q(a),'; '.join(map(q,fs[:-2])),q(fs[-2]),q(fs[-1][4:])))
        elif re.match(r'(Send|Recv)Timed<',b):
            fs=b[10:-1].split(', '); assert len(fs)==8
            ty.append('D %s (M %s %s %s %s %s %s %s %s %s)'%(q(a),'true' if b[0]=='S' else 'false',q(fs[0]),q(fs[1].strip("'")),q(fs[2]),fs[3],q(fs[4]),fs[5],q(fs[6].strip("'")),q(fs[7])))
        elif b=='RoleBroadcast': ty.append('D %s Broadcast'%q(a))
        elif re.match(r'Role\w+<',b): r,x=re.match(r'Role(\w+)<(\w+)>$',b).groups(); ty.append('D %s (R %s %s)'%(q(a),q(r),q(x)))
        else: assert b in('End','RoleEnd'),b; ty.append('D %s (A %s)'%(q(a),q(b)))
    assert len(ty)+len(ep)==len(re.findall(r'^type',t,re.M))
    en=[]
    for m in re.finditer(r'^enum (\w+) \{\n(.*?)^\}',t,re.M|re.S):
        bs=re.findall(r'^\tBranching(\d+)\((\w+)\),$',m.group(2),re.M); assert [int(x) for x,_ in bs]==list(range(len(bs))) and len(bs)==m.group(2).count('\n')
        en.append('C %s [%s]'%(q(m.group(1)),'; '.join(q(y) for _,y in bs)))
    fn=[]
    for m in re.finditer(r'^fn endpoint_(\w+?)_((?:\d+_)+)v_(\d+)\(s: (\w+), [^\n]*\n(.*?)^\}',t,re.M|re.S):
        r,ix,k,a,b=m.groups()
        r=[x for x in roles if x.lower()==r][0]
        fn.append('F %s [%s] %s %s [%s]'%(q(r),'; '.join(x+'%nat' for x in ix.strip('_').split('_')),k,q(a),'; '.join(q(x) for x in re.findall(r"insert\('(.)'",b))))
    assert len(fn)+1==len(re.findall(r'^fn ',t,re.M))
    f=lambda l:'[\n%s]'%';\n'.join('  '+x for x in l) if l else '[]'
    out.append('(** tests/nuscr_mod/%s:1-%d *)\nDefinition %s : rust_file := RustFile (map lit [%s])\n %s\n %s\n %s\n %s\n %s.\n'%(path,n,name,'; '.join(map(q,roles)),f(st),f(ty),f(en),f(ep),f(fn)))
for n in('basic','choice','recursion'):
    emit_lines(n+'_lines','correct/%s.nuscr'%n); emit_file(n+'_file','correct/%s.rs'%n.capitalize())
emit_lines('nested_lines','correct/nested_choice.nuscr')
for n in('wrong_interval','wrong_consecutive_intervals'): emit_lines(n+'_lines','failing/%s.nuscr'%n)
open('/verif/rocq/theories/NuscrTests.v','w').write('\n'.join(out))
print(len(rows))
