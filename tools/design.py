#!/usr/bin/env python3
"""Refresh the generated parts of DESIGN.md: the state of each property (from
MANIFEST.json and properties.jsonl) and the code cited by each model file."""
import json, os, re, glob

ROOT = os.path.dirname(os.path.dirname(os.path.abspath(__file__)))


def state():
    props = [json.loads(l) for l in open(f'{ROOT}/properties.jsonl')]
    claims = {c['property']: c for c in json.load(open(f'{ROOT}/MANIFEST.json'))['claims']}
    out = []
    for p in props:
        c = claims.get(p['id'])
        if c is None:
            out.append(f"* **{p['id']} {p['title']}** - open.")
            continue
        out.append(f"* **{p['id']} {p['title']}** - {c['status']}: "
                   + ', '.join(f'`{t}`' for t in c['theorems'])
                   + (f". {c['note']}" if c['note'] else '.'))
    return '\n'.join(out)


def head_comment(txt):
    m = re.match(r'\s*\(\*(.*?)\*\)', txt, re.S)
    return ' '.join(m.group(1).split()) if m else ''


def functions():
    out = []
    for f in sorted(glob.glob(f'{ROOT}/rocq/theories/*Model.v')):
        txt = open(f).read()
        cites = re.findall(r'([a-zA-Z0-9_\-/]+\.(?:c|h|cpp|cc))[: ]+(\d[\d,\- ]*)\s*(\w+)?', txt)
        names = []
        for _, _, n in cites:
            if n and re.match(r'^(ngx_|kmp_|ts_|ks_|add|samples|[A-Z]\w+::)', n) and n not in names:
                names.append(n)
        out.append(f"* `{os.path.basename(f)}`: {head_comment(txt)}"
                   + (f" Functions and types: {', '.join(names)}." if names else ''))
    return '\n'.join(out)


p = f'{ROOT}/DESIGN.md'
s = open(p).read()
for tag, body in (('state', state()), ('functions', functions())):
    a, b = f'<!-- {tag} -->', f'<!-- end {tag} -->'
    s = s[:s.index(a) + len(a)] + '\n' + body + '\n' + s[s.index(b):]
open(p, 'w').write(s)
