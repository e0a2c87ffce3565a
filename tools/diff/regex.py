"""Compare Regex.v and RegexSyntax.v with Python's re on random patterns.

    python3 regex.py SEED COUNT > /tmp/rx.v; coqc -Q theories Verif /tmp/rx.v

The last answer must be the empty list; the first two are how many patterns
were compared, and how many Python accepts but RegexSyntax.v does not.
"""
import random,re,sys,warnings
warnings.simplefilter('error')
random.seed(int(sys.argv[1]))
frag=['a','b','.','|','(',')','*','+','?','*?','[ab]','[^a]','[a-c]','[^b-]','[]a]','^','$','(?:','(?P<x>','(?P<y>','(?<=[a])',r'\d',r'\.',r'\(',r'a',r'[\d]','{','}','1','-',']','\n','c','(?<=[^ab])']
texts=['','a','b','ab','ba','aab','abab','a\n','\na','1a','b1','a.b','(a)','{a}','cab','bca','ac\nb','aa-bb','a]b']
out=[]
tot=0
while len(out)<int(sys.argv[2]):
    p=''.join(random.choice(frag) for _ in range(random.randrange(1,7)))
    try: r=re.compile(p)
    except Exception: r=None
    rows=[]
    for t in random.sample(texts,6):
        if r is None: rows.append((t,None,None)); continue
        m=r.match(t)
        mm=None if m is None else (m.end(),m.groupdict().get('x'),m.groupdict().get('y'))
        f=[(q.start(),q.end()) for q in r.finditer(t)]
        rows.append((t,mm,f))
    out.append((p,r is not None,rows))
def s(t): return '['+';'.join(str(ord(c)) for c in t)+']%Z'
def o(x,f): return 'None' if x is None else 'Some (%s)'%f(x)
print('''From Verif Require Import Base PyStr Regex RegexSyntax RegexSem.
Definition isd (c:Z) := (48 <=? c)%Z && (c <=? 57)%Z.
Definition num (n:nat) : list Z := [Z.of_nat n + 1000]%Z.
Definition eqo (a b : option (list Z)) := match a, b with Some x, Some y => eqb x y | None, None => true | _,_ => false end.
Definition row (r : re) (x : list Z * option (nat * option (list Z) * option (list Z)) * list (nat*nat)) : bool :=
 let '(t,m,f) := x in
 (match match_ r t, m with
 | Some p, Some (e,gx,gy) => Nat.eqb (length t - length (rest p)) e && eqo (group [120]%Z p) gx && eqo (group [121]%Z p) gy
 | None, None => true | _,_ => false end) &&
 (nullable r || (list_beq f (map (fun ab => (length t - length (rest (fst ab)), length t - length (rest (snd ab)))%nat) (finditer r t)))).
''' .replace('Definition row','Fixpoint list_beq (a b : list (nat*nat)) : bool := match a, b with [],[] => true | (x,y)::a,(z,w)::b => Nat.eqb x z && Nat.eqb y w && list_beq a b | _,_ => false end.\nDefinition row'))
print('Definition data : list (list Z * bool * list (list Z * option (nat * option (list Z) * option (list Z)) * list (nat*nat))) := [')
L=[]
for p,okp,rows in out:
    R=[]
    for t,m,f in rows:
        if f is None: continue
        R.append('(%s,%s,[%s])'%(s(t),o(m,lambda m:'%d%%nat,%s,%s'%(m[0],o(m[1],s),o(m[2],s))),';'.join('(%d,%d)%%nat'%ab for ab in f)))
    L.append('(%s,%s,[%s])'%(s(p),'true' if okp else 'false',';'.join(R)))
print(';\n'.join(L)); print('].')
print('''Definition bad := filter (fun d : list Z * bool * list (list Z * option (nat * option (list Z) * option (list Z)) * list (nat*nat)) => match d with (p,okp,rows) => match parse p with None => false | Some x => if okp then let r := compile isd num x in solid r && negb (forallb (row r) rows) else true end end) data.
Eval vm_compute in (length (filter (fun d : list Z * bool * list (list Z * option (nat * option (list Z) * option (list Z)) * list (nat*nat)) => match d with (p,okp,rows) => match parse p with Some x => solid (compile isd num x) | None => false end end) data)).
Eval vm_compute in (length (filter (fun d : list Z * bool * list (list Z * option (nat * option (list Z) * option (list Z)) * list (nat*nat)) => match d with (p,okp,rows) => match parse p with Some x => false | None => okp end end) data)).
Eval vm_compute in (firstn 3 bad).''')
