#!/usr/bin/env python3
"""Writes COVERAGE.md: for each function of /repo/cjktools and /repo/scripts the definitions of
rocq/theories whose comments cite its lines."""
import ast, glob, os, re
root = os.path.dirname(os.path.dirname(os.path.abspath(__file__)))
cites = {}
for f in sorted(glob.glob(root + '/rocq/theories/*.v')):
    if f.endswith(('_proofs.v', '_props.v')):
        continue
    src = open(f).read()
    for c in re.finditer(r'\(\*(.*?)\*\)', src, re.S):
        found = re.findall(r'([\w/]+\.py)[:\s]*(?:lines? )?((?:\d+(?:-\d+)?(?:, ?| and )?)+)', c.group(1))
        if not found:
            continue
        d = re.search(r'^\s*(?:Definition|Fixpoint|Inductive|Record|Variable|Parameter) (\w+)', src[c.end():], re.M)
        name = d.group(1) if d else '-'
        for p, ranges in found:
            for a, b in re.findall(r'(\d+)(?:-(\d+))?', ranges):
                if int(b or a) - int(a) < 80:
                    cites.setdefault(os.path.basename(p), []).append((int(a), int(b or a), os.path.basename(f)[:-2] + '.' + name))
out = ['# Functions of /repo/cjktools and /repo/scripts, and the definitions that model them', '',
       'Generated by tools/coverage.py from the citations in the models.', '']
for p in sorted(glob.glob('/repo/cjktools/*.py') + glob.glob('/repo/cjktools/resources/*.py') + glob.glob('/repo/scripts/*.py')):
    t = ast.parse(open(p).read())
    n = os.path.basename(p)
    rows = []

    def visit(node, prefix):
        for x in ast.iter_child_nodes(node):
            if isinstance(x, ast.ClassDef):
                visit(x, prefix + x.name + '.')
            elif isinstance(x, ast.FunctionDef):
                hit = []
                for a, b, d in cites.get(n, []):
                    if a <= x.end_lineno and b >= x.lineno and d not in hit:
                        hit.append(d)
                rows.append('| `%s%s` | %d-%d | %s |' % (prefix, x.name, x.lineno, x.end_lineno, ', '.join(hit) or 'not cited'))
                visit(x, prefix + x.name + '.')
    visit(t, '')
    if rows:
        out += ['## ' + os.path.relpath(p, '/repo'), '', '| function | lines | model |', '|---|---|---|'] + rows + ['']
open(root + '/COVERAGE.md', 'w').write('\n'.join(out))
