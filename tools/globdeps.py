"""Which theorems use a lemma, from the .glob files of a build."""
import os, re, collections

def graph(root):
    """constant -> set of constants that its text refers to (names are File.name)"""
    uses = collections.defaultdict(set)
    for d, _, fs in os.walk(root):
        for f in fs:
            if not f.endswith('.glob'):
                continue
            mod = None
            decl, refs = [], []
            for l in open(os.path.join(d, f), encoding='latin-1'):
                if l.startswith('F'):
                    mod = l[1:].strip()
                    continue
                m = re.match(r'R(\d+):\d+ (\S+) (\S+) (\S+) (\S+)', l)
                if m:
                    if m.group(5) in ('thm', 'def', 'prf', 'ind', 'constr', 'lem', 'inst', 'rec', 'proj'):
                        refs.append((int(m.group(1)), m.group(2) + '.' + m.group(4)))
                    continue
                m = re.match(r'(prf|def|thm|ind|inst|rec|lem|ex) (\d+):\d+ (\S+) (\S+)', l)
                if m:
                    decl.append((int(m.group(2)), mod + '.' + m.group(4)))
            decl.sort()
            import bisect
            pos = [p for p, _ in decl]
            for p, r in refs:
                i = bisect.bisect_right(pos, p) - 1
                if i >= 0:
                    uses[decl[i][1]].add(r)
    return uses

def dependents(root):
    """function: names (File.name) -> the theorems Cxx_... that use one of them"""
    uses = graph(root)
    used_by = collections.defaultdict(set)
    for a, bs in uses.items():
        for b in bs:
            used_by[b].add(a)
    def f(names):
        seen, todo = set(), list(names)
        while todo:
            x = todo.pop()
            if x in seen:
                continue
            seen.add(x)
            todo += used_by[x]
        return sorted({x.split('.')[-1] for x in seen if re.match(r'C\d+_(?!ex\b)', x.split('.')[-1])})
    return f
