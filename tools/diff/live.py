"""Live_model.v against CPython: dictionaries and lists changed while iterated over.

Dictionaries are kept small enough that their tables are never rebuilt.
"""
import random


def model(slots, script):
    size = left = sum(e is not None for e in slots)
    p, seen = 0, []
    while True:
        if sum(e is not None for e in slots) != size:
            return seen, 'RuntimeError', [e for e in slots if e]
        while p < len(slots) and slots[p] is None:
            p += 1
        if p >= len(slots):
            return seen, 'ok', [e for e in slots if e]
        if left == 0:
            return seen, 'RuntimeError', [e for e in slots if e]
        seen.append(slots[p])
        p, left = p + 1, left - 1
        for op, k, v in script[len(seen) - 1]:
            where = [i for i, e in enumerate(slots) if e and e[0] == k]
            if op == 'del':
                if where:
                    slots[where[0]] = None
            elif where:
                slots[where[0]] = (k, v)
            else:
                slots.append((k, v))


def real(d, script):
    seen = []
    try:
        for item in d.items():
            seen.append(item)
            for op, k, v in script[len(seen) - 1]:
                if op == 'del':
                    d.pop(k, None)
                else:
                    d[k] = v
    except RuntimeError:
        return seen, 'RuntimeError', list(d.items())
    return seen, 'ok', list(d.items())


def main():
    random.seed(1)
    for _ in range(300000):
        keys = random.sample(range(4), random.randrange(1, 4))
        items = [(k, random.randrange(9)) for k in keys]
        script = [[(random.choice(['del', 'set']), random.randrange(4), random.randrange(9))
                   for _ in range(random.choice([0, 1, 1, 2, 2]))] for _ in range(4)]
        inserts = len(items) + sum(op == 'set' for ops in script for op, _, _ in ops)
        if inserts > 5:
            continue
        a, b = model(list(items), script), real(dict(items), script)
        assert a == b, (items, script, a, b)
    for n in range(30):
        l = list(range(n))
        for x in l:
            l.remove(x)
        assert l == list(range(n))[1::2]
    print('ok')


if __name__ == '__main__':
    main()
