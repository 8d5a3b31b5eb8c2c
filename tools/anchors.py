"""Check that every anchor of properties.jsonl names a symbol that exists in /repo."""
import ast, json, sys
from pathlib import Path
cache = {}
def symbols(path):
    if path not in cache:
        names = set()
        def walk(node, prefix):
            for child in ast.iter_child_nodes(node):
                if isinstance(child, (ast.FunctionDef, ast.ClassDef)):
                    name = prefix + child.name
                    names.add(name); names.add(child.name)
                    walk(child, name + '.')
                else:
                    walk(child, prefix)
        walk(ast.parse(Path('/repo', path).read_text()), '')
        cache[path] = names
    return cache[path]
bad = 0
for line in open('/verif/properties.jsonl'):
    d = json.loads(line)
    for a in d['anchors']:
        path, _, sym = a.partition(':')
        if not Path('/repo', path).exists() or (sym and sym not in symbols(path)):
            print(d['id'], a); bad += 1
sys.exit(bool(bad))
