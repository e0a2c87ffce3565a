#!/usr/bin/env python3
"""Checks what FileLife_model.v assumes of CPython: when an exception leaves a
loop over a generator, a generator held only by the loop is closed at once and
one held by a local variable stays suspended while the exception is kept;
ExitStack leaves in reverse order, and what a generator expression given to
functools.reduce has entered is left when a later element fails."""
from contextlib import ExitStack
from functools import reduce
from itertools import chain

live = []


class Stream(object):
    def __init__(self, name):
        live.append(name)
        self.name = name

    def __enter__(self):
        return self

    def __exit__(self, *args):
        live.remove(self.name)
        log.append(self.name)

    def __iter__(self):
        return iter(range(3))


def rows():
    with Stream('f') as f:
        for x in f:
            yield x


def temporary():
    for x in rows():
        if x == 1:
            raise ValueError


def variable():
    gen = rows()
    for x in chain([next(gen)], gen):
        if x == 1:
            raise ValueError


log = []
try:
    temporary()
except ValueError:
    assert live == []
try:
    variable()
except ValueError:
    assert live == ['f']
assert live == []
g = rows()
assert live == []
next(g)
assert live == ['f']
g.close()
assert live == [] and next(g, None) is None
del log[:]


def enter(stack, n):
    if n == 'bad':
        raise OSError(n)
    return stack.enter_context(Stream(n))


for names, closed in ((['a', 'b', 'c'], ['c', 'b', 'a']), (['a', 'b', 'bad', 'd'], ['b', 'a']), ([], [])):
    del log[:]
    try:
        with ExitStack() as stack:
            lines = reduce(chain, (enter(stack, n) for n in names))
            assert live == names and list(lines) == [0, 1, 2] * len(names)
        assert names and 'bad' not in names
    except OSError:
        assert 'bad' in names
    except TypeError:
        assert not names
    assert log == closed and live == [], (log, closed)
print('generators: ok')
