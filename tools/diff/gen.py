"""Compare the models of Python's own library with the Python at hand.

Prints a Coq file whose goals say that the models (strings, int(), lines, csv,
UTF-8, posixpath, argparse, '%.04f') give what this Python gives, on random
inputs.  Nothing of /repo is run.  Not part of the build:

    python3 gen.py SEED COUNT > /tmp/d.v; coqc -Q theories Verif /tmp/d.v
"""
import argparse, codecs, contextlib, csv, io, os, posixpath, random, sys, unicodedata

random.seed(int(sys.argv[1]))
N = int(sys.argv[2])


def s(t):
    return '[' + ';'.join(str(ord(c)) for c in t) + ']'


def b(t):
    return '[' + ';'.join(str(c) for c in t) + ']'


def l(f, xs):
    return '[' + ';'.join(f(x) for x in xs) + ']'


def o(f, x):
    return 'None' if x is None else '(Some %s)' % f(x)


def text(alphabet, n=10):
    return ''.join(random.choice(alphabet) for _ in range(random.randrange(n)))


def goal(name, typ, check, rows):
    print('Definition data_%s : list (%s) := [\n%s].' % (name, typ, ';\n'.join(rows)))
    print('Goal forallb (fun d => %s) data_%s = true. Proof. vm_compute. reflexivity. Qed.' % (check, name))


print('''From Verif Require Import Base PyStr PyText PyFmt Csv_model Encoding_model Files_model Python2_model Misc_model Command_model Float_model.
Local Open Scope Z_scope.
Notation str := (list Z) (only parsing).
Definition eqo {A} (e : A -> A -> bool) (a b : option A) := match a, b with Some x, Some y => e x y | None, None => true | _, _ => false end.
Fixpoint eql {A} (e : A -> A -> bool) (a b : list A) := match a, b with [], [] => true | x :: a, y :: b => e x y && eql e a b | _, _ => false end.
Definition eqs : str -> str -> bool := eql Z.eqb.''')

# white space: all code points
spaces = [c for c in range(0x110000) if chr(c).isspace()]
print('Goal filter is_space (map Z.of_nat (seq 0 70000)) = %s. Proof. vm_compute. reflexivity. Qed.' % ('[' + ';'.join(map(str, spaces)) + ']'))
assert all(chr(c).strip() == '' for c in spaces) and all(c < 70000 for c in spaces)

ws = ' \t\n\r\x0b\x0c\x1c\x1d\x1f\x85\xa0 　 ​ab/,'
rows = []
for _ in range(N):
    t = text(ws)
    p = text('ab/ ', 3)
    i = t.find(p)
    rows.append('(%s,%s,%s,%s,%s,(%s,%s,%s),%s)' % (s(t), s(t.strip()), s(t.rstrip()), l(s, t.split()), l(s, t.split('/')), s(p),
                str(t.startswith(p)).lower(), str(t.endswith(p)).lower(), o(lambda i: '%d%%nat' % i, None if i < 0 else i)))
goal('text', 'str * str * str * list str * list str * (str * bool * bool) * option nat',
     "match d with (t, st, rs, sp, so, (p, sw, ew), f) => eqs (strip t) st && eqs (rstrip t) rs && eql eqs (split_ws t) sp && eql eqs (split_on 47 t) so && "
     "Bool.eqb (startswith p t) sw && Bool.eqb (endswith p t) ew && eqo Nat.eqb (find p t) f end", rows)

# int(): the digits that occur
digits = '0123456789٣३３９'
alpha = digits + digits + '__+-  \t\x1c　aAfFgxX.²'
rows = []
for _ in range(N * 3):
    t = text(alpha, 7) if random.random() < .7 else text('0xX_1aF+- ', 7)
    res = []
    for base in (10, 16):
        try:
            res.append(int(t, base))
        except ValueError:
            res.append(None)
    rows.append('(%s,%s,%s)' % (s(t), o(lambda x: '(%d)' % x, res[0]), o(lambda x: '(%d)' % x, res[1])))
table = ' '.join('if c =? %d then Some %d else' % (ord(c), unicodedata.decimal(c)) for c in digits)
print('Definition dv (c : Z) : option Z := %s None.' % table)
goal('int', 'str * option Z * option Z', 'match d with (t, x, y) => eqo Z.eqb (py_int dv 10 t) x && eqo Z.eqb (py_int dv 16 t) y end', rows)
rows = []
for _ in range(N):
    n = random.choice([1, -1]) * random.randrange(10 ** random.randrange(1, 40))
    rows.append('(%d,%s)' % (n, s('%d' % n)))
goal('dec', 'Z * str', 'match d with (n, t) => eqs (dec n) t end', [r.replace('(-', '((-', 1).replace(',', '),', 1) if r.startswith('(-') else r for r in rows])

# the lines of a text file
rows = []
for _ in range(N):
    t = text('ab\n\r\x0b\x85 ', 12)
    ls = list(io.TextIOWrapper(io.BytesIO(t.encode('utf8')), encoding='utf8'))
    rows.append('(%s,%s)' % (s(t), l(s, ls)))
goal('lines', 'str * list str', 'match d with (t, ls) => eql eqs (file_lines t) ls end', rows)

# iterating over codecs streams and binary streams; bytes.split()
rows = []
for _ in range(N):
    t = ''.join(random.choice('aあ\n\r\r\n\x0b\x1c\x85\u2028 ') if random.random() < .4 else 'x' for _ in range(random.choice([5, 20, 80, 150])))
    e = t.encode('utf8')
    rows.append('(%s,%s,%s,%s,%s)' % (s(t), l(s, list(codecs.getreader('utf8')(io.BytesIO(e)))), b(e), l(b, list(io.BytesIO(e))), l(b, e.split())))
goal('codec', 'str * list str * list Z * list (list Z) * list (list Z)',
     'match d with (t, ls, e, bs, ws) => eql eqs (codec_lines t) ls && eql eqs (byte_lines e) bs && eql eqs (byte_words e) ws end', rows)

# csv.reader
rows = []
for _ in range(N * 2):
    ls = [text('a"\t\n\r ,"', 8) for _ in range(random.randrange(5))]
    out, fine = [], True
    try:
        for r in csv.reader(iter(ls), delimiter='\t'):
            out.append(r)
    except csv.Error:
        fine = False
    rows.append('(%s,%s,%s)' % (l(s, ls), l(lambda r: l(s, r), out), str(fine).lower()))
goal('csv', 'list str * list (list str) * bool',
     'match d with (ls, rs, fine) => let (x, e) := load_file (mksource ls None) in eql (eql eqs) x rs && match e with Ok _ => fine | Raise CsvError => negb fine | _ => false end end', rows)

# UTF-8
rows = []
for _ in range(N * 3):
    k = random.random()
    if k < .4:
        t = bytes(random.choice([65, 10, 127, 128, 143, 144, 159, 160, 191, 192, 193, 194, 223, 224, 225, 236, 237, 238, 239, 240, 241, 243, 244, 245, 255]) for _ in range(random.randrange(7)))
    else:
        t = ''.join(chr(random.choice([65, 127, 128, 0x7ff, 0x800, 0xd7ff, 0xe000, 0xffff, 0x10000, 0x10ffff, random.randrange(0xd800)])) for _ in range(random.randrange(5))).encode('utf8')
        if k < .7 and t:
            i = random.randrange(len(t))
            t = t[:i] + bytes([random.randrange(256)]) + t[i + random.randrange(2):]
    try:
        d, fine = t.decode('utf8'), True
    except UnicodeDecodeError as e:
        d, fine = t[:e.start].decode('utf8'), False
    rows.append('(%s,%s,%s)' % (b(t), s(d), str(fine).lower()))
goal('utf8', 'list Z * str * bool', 'match d with (t, x, fine) => eqs (fst (utf8 t)) x && Bool.eqb (snd (utf8 t)) fine && (negb fine || eqs (utf8_encode x) t) end', rows)

# posixpath
rows = []
for _ in range(N):
    p, q, h = text('a/~', 5), text('a/~', 5), random.choice(['/h', '/h/', '/', '', '//', 'h'])
    os.environ['HOME'] = h
    if p.startswith('~') and not (p + '/').startswith('~/'):
        p = p.replace('~', '', 1)
    rows.append('(%s,%s,%s,%s,%s)' % (s(p), s(q), s(h), s(posixpath.join(p, q)), s(posixpath.expanduser(p))))
goal('path', 'str * str * str * str * str', 'match d with (p, q, h, j, e) => eqs (path_join p q) j && eqs (expanduser [(u "HOME", h)] None (fun _ => None) p) e end', rows)

# argparse: the parser of scripts/load_as_rst.py
rows = []
while len(rows) < N * 3:
    args = [random.choice(['f', 'g', '', '-', '--', '-o', '--output', '--out', '--o', '-of', '-oh', '-h', '-ho', '-hof', '-hx', '-hh', '--help', '--he', '--h', '--output=x', '--out=', '--help=x',
                           '-o=x', '-x', '--x', '-1', '-1.5', '-.5', '-a b', '--output=--', '-h=', '-\n', '-1\n', '--=', '-o-', '--o=a=b'])
            for _ in range(random.randrange(5))]
    parser = argparse.ArgumentParser('d')
    parser.add_argument('input', type=str, default=None)
    parser.add_argument('-o', '--output', type=str, default=None)
    with contextlib.redirect_stderr(io.StringIO()), contextlib.redirect_stdout(io.StringIO()):
        try:
            a = parser.parse_args(args)
            v = None if a.output is None else ('EmptyList' if a.output == [] else '(Text %s)' % s(a.output))
            r = '(Parsed %s %s)' % (s(a.input), o(str, v))
        except SystemExit as e:
            r = '(Exit %d)' % e.code
    rows.append('(%s,%s)' % (l(s, args), r))
goal('args', 'list str * outcome',
     'match d with (args, r) => match parse_args true (fun c => (48 <=? c) && (c <=? 57)) args, r with Parsed i v, Parsed j w => eqs i j && eqo (fun a b => match a, b with Text x, Text y => eqs x y | EmptyList, EmptyList => true | _, _ => false end) v w | Exit a, Exit b => a =? b | _, _ => false end end', rows)

# '%.04f' % (a / float(b))


def count():
    t = random.random()
    if t < .3:
        return random.randrange(-20, 20)
    if t < .6:
        return random.randrange(-10 ** 6, 10 ** 6)
    if t < .9:
        return random.randrange(-2 ** random.randrange(1, 1023), 2 ** random.randrange(1, 1023))
    return random.choice([1, -1]) * (2 ** random.randrange(50, 1024) + random.randrange(-3, 4))


rows = []
while len(rows) < N:
    x, y = count(), random.choice([count(), 2 ** random.randrange(20)])
    if y == 0:
        continue
    try:
        t = '%.04f' % (x / float(y))
    except OverflowError:
        t = None
    rows.append('((%d),(%d),%s)' % (x, y, o(s, t)))
goal('float', 'Z * Z * option str', 'match d with (x, y, t) => eqo eqs (shown x y) t end', rows)
print('(* all agree *)')
