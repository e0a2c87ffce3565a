"""Check, with the Python at hand, premises of the theorems about its library.

    python3 facts.py PAIRS

PAIRS holds what Coq prints for
    (map fst dakuten_pairs, map snd dakuten_pairs, map fst handakuten_pairs, map snd handakuten_pairs)
(KanaTable_spec.v).  Nothing of /repo is run.
"""
import collections, io, pickle, random, re, sys, unicodedata

# ucd_ok (KanaTable_spec.v), for all code points
ls = [list(map(int, re.findall(r'\d+', x))) for x in re.findall(r'\[([^\]]*)\]', open(sys.argv[1]).read())][:4]
dakuten, handakuten = dict(zip(ls[0], ls[1])), dict(zip(ls[2], ls[3]))
for c in range(0x110000):
    if 0xd800 <= c < 0xe000:
        continue
    n = [ord(x) for x in unicodedata.normalize('NFD', chr(c))]
    if c in dakuten:
        assert n == [dakuten[c], 0x3099] and unicodedata.combining(chr(dakuten[c])) == 0
    elif c in handakuten:
        assert n == [handakuten[c], 0x309a] and unicodedata.combining(chr(handakuten[c])) == 0
    elif c in (0x3099, 0x309a):
        assert n == [c] and unicodedata.combining(chr(c)) == 8
    else:
        assert n and 0x3099 not in n and 0x309a not in n
    # unicode_digits: no space is a digit, and \d are the digits int() takes
    assert not (chr(c).isspace() and chr(c).isdecimal())
    assert bool(re.match(r'\d', chr(c))) == chr(c).isdecimal()

# pickle_ok (SmartCache_spec.v)
random.seed(3)


def thing(depth=3):
    t = random.randrange(9)
    if depth == 0 or t < 4:
        return random.choice([None, True, random.randrange(-10 ** 12, 10 ** 12), 'あ' * random.randrange(4), b'ab', 1.5, 'x' * 300])
    if t < 6:
        return [thing(depth - 1) for _ in range(random.randrange(4))]
    if t < 7:
        return tuple(thing(depth - 1) for _ in range(random.randrange(4)))
    if t < 8:
        return {random.randrange(9): thing(depth - 1) for _ in range(3)}
    return collections.OrderedDict((str(i), thing(depth - 1)) for i in range(3))


for protocol in (2, 4, 5):
    for _ in range(300):
        o = thing()
        b = pickle.dumps(o, protocol)
        f = io.BytesIO(b + b'rest')
        assert pickle.load(f) == o and f.read() == b'rest'
        for i in range(len(b)):
            try:
                pickle.load(io.BytesIO(b[:i]))
            except (EOFError, pickle.UnpicklingError):
                continue
            assert False
print('all hold')
