#!/usr/bin/env python3
"""Systematic wrong-program edits: every definition of a model file is changed
by simple rules (comparison, arithmetic, constant, negated test, dropped
assertion, dropped update) and the build is repeated in a scratch copy.

usage: automut.py M_File.v [-j N] [--def NAME] > report

An edit is killed when a lemma breaks on which a property theorem (P_*.v)
depends, according to the .glob files of the unedited build, or a property
theorem itself.  A lemma no property depends on is admitted and the build goes
on.  Edits that survive are printed."""
import json, os, re, shutil, subprocess, sys, threading
from concurrent.futures import ThreadPoolExecutor
sys.path.insert(0, os.path.dirname(os.path.abspath(__file__)))
import mutate as mu
TH = mu.TH

def graph():
    """theorem name -> names used, by file, from the .glob files"""
    use = {}
    for f in os.listdir(TH):
        if not f.endswith(".glob"): continue
        mod = f[:-5]
        cur = None
        ents = []
        for l in open(os.path.join(TH, f)):
            m = re.match(r"(prf|thm|def|ind|rec|inst) (\d+):(\d+) \S+ (\S+)", l)
            if m: ents.append((int(m.group(2)), 0, (mod, m.group(4)))); continue
            m = re.match(r"R(\d+):\d+ (\S+) \S+ (\S+) (\w+)", l)
            if m and m.group(2).startswith("Verif."): ents.append((int(m.group(1)), 1, (m.group(2)[6:], m.group(3))))
        ents.sort(key=lambda x: (x[0], x[1]))
        for _, k, n in ents:
            if k == 0: cur = n; use.setdefault(cur, set())
            elif cur: use[cur].add(n)
    rev = {}
    for a, bs in use.items():
        for b in bs: rev.setdefault(b, set()).add(a)
    return rev

def props_of(rev, node):
    seen, st, out = {node}, [node], set()
    while st:
        x = st.pop()
        if x[0].startswith("P_") and re.match(r"C\d\d_", x[1]): out.add(x[1])
        for y in rev.get(x, ()):
            if y not in seen: seen.add(y); st.append(y)
    return out

RULES = [
    (r"<\?", "<=?"), (r"<=\?", "<?"), (r"(?<![<>=])=\?(?!=)", "<=?"),
    (r"Nat\.eqb", "Nat.leb"), (r"&&", "||"), (r"\|\|", "&&"), (r"\bnegb\b", ""),
    (r" \+ 1\b", ""), (r" - 1\b", ""), (r" \+ ", " - "), (r" - ", " + "), (r"\bS \(", "("), (r"\bS (?=\w)", ""),
    (r"\bu8 \(", "("), (r"\bu16 \(", "("), (r"\bu32 \(", "("), (r"\btrue\b", "false"), (r"\bfalse\b", "true"),
    (r"(?<![\w.])0(?![\w.])", "1"), (r"(?<![\w.])1(?![\w.])", "2"), (r"(?<![\w.])1(?![\w.])", "0"), (r"(?<![\w.])255(?![\w.])", "254"), (r"(?<![\w.])256(?![\w.])", "255"),
    (r"\bif ((?:(?!\b(?:then|if)\b).)*?) then", r"if negb (\1) then"),
    (r"do! rassert[^;]*;", ""), (r"\bN\.land\b", "N.lor"), (r"\bN\.lor\b", "N.land"), (r"\bN\.shiftl\b", "N.shiftr"), (r"\bN\.shiftr\b", "N.shiftl"),
    (r"\bset_\w+ (\w+) (?:\([^()]*\)|\w+)", r"\1"), (r"\bSome (\w+)", "None"), (r"\bNone\b(?! =>)", "Some 0%nat"),
    (r"\bmod\b", "/"), (r" \* ", " + "),
    (r"\bwr (\([^()]*\)|\w+) (\([^()]*\)|\w+) (\([^()]*\)|\w+)", r"Ok \1"),
    (r"\b(\w+) (\w+) (\w+)(?=\)|;| in)", r"\1 \3 \2"),
    (r"\biu_\w+ \(q_info q\)", "q_info q"),
    (r"\bXExit\b", "XEntry"), (r"\bfst\b", "snd"), (r"\bsnd\b", "fst"), (r"\bhd\b", "last"), (r"\brev\b", ""),
    (r"\[([^\[\];]+); ([^\[\];]+)\]", r"[\2; \1]"), (r" \+\+ \[[^\[\]]*\]", ""), (r"(\w+) \+\+ (\w+)", r"\2 ++ \1"),
    (r"\b(\d\d+)\b", r"(\1 + 1)"),
]
def comments(s):
    """positions inside comments"""
    bad = bytearray(len(s)); d = 0; i = 0
    while i < len(s):
        if s.startswith("(*", i): d += 1; bad[i:i+2] = b"\1\1"; i += 2; continue
        if s.startswith("*)", i): bad[i:i+2] = b"\1\1"; d -= 1; i += 2; continue
        if d: bad[i] = 1
        i += 1
    return bad

def mutants(f, only):
    s = open(os.path.join(TH, f)).read()
    bad = comments(s)
    heads = [m for m in re.finditer(r"^(?:Definition|Fixpoint|Inductive|Record|Section|End|Context|Notation|Arguments|Lemma|Local|From)\b ?(\w*)", s, re.M) if not bad[m.start()]]
    out = []
    for i, h in enumerate(heads):
        if not (h.group(0).startswith("Definition") or h.group(0).startswith("Fixpoint")): continue
        if only and h.group(1) != only: continue
        a, b = h.start(), heads[i+1].start() if i + 1 < len(heads) else len(s)
        a0 = s.find(":=", a)
        seen = set()
        for pat, rep in RULES:
            for m in re.finditer(pat, s[a0:b], re.S):
                p = a0 + m.start()
                if bad[p]: continue
                new = m.expand(rep)
                t = s[:p] + new + s[a0 + m.end():]
                if t in seen or t == s: continue
                seen.add(t)
                out.append((h.group(1), s.count("\n", 0, p) + 1, m.group(0), new, t))
    return out

def run(f, mt, files, rev, base):
    name, line, old, new, text = mt
    d = f"/tmp/am/{base}_{threading.get_ident()}"
    if not os.path.isdir(d): shutil.copytree(TH, d, ignore=shutil.ignore_patterns("*.glob", "*.aux", ".*"))
    for g in files: shutil.copy(os.path.join(TH, g), os.path.join(d, g))
    open(os.path.join(d, f), "w").write(text)
    admitted = []
    for g in files:
        path = os.path.join(d, g)
        if g.startswith("P_"):
            t = open(path).read()
            open(path, "w").write(re.sub(r"(?m)^Print Assumptions \w+\.", "", t))
        while True:
            try:
                r = subprocess.run(["coqc", "-noglob", "-Q", ".", "Verif", g], cwd=d, capture_output=True, text=True, timeout=300)
            except subprocess.TimeoutExpired:
                return ("killed", "timeout in " + g)
            if r.returncode == 0: break
            if g == f: return ("invalid", r.stderr[-150:])
            ms = list(re.finditer(r'File "\./' + re.escape(g) + r'", line (\d+)', r.stderr))
            if not ms: return ("error", r.stderr[:300])
            ln = int(ms[-1].group(1))
            t = open(path).read()
            pos = sum(len(l) + 1 for l in t.split("\n")[:ln]) - 1
            hs = [h for h in mu.HEAD.finditer(t) if h.start() <= pos]
            if not hs: return ("invalid", g + ": " + r.stderr[-200:])
            h = hs[-1]
            pr = re.compile(r"\bProof\b").search(t, h.start()); en = re.compile(r"\b(Qed|Defined)\.").search(t, h.start())
            if not (t.count("\n", 0, pr.start()) + 1 <= ln <= t.count("\n", 0, en.end()) + 1):
                return ("invalid", g + ": " + r.stderr[-200:])
            nm = h.group(2)
            ps = props_of(rev, (g[:-2], nm))
            if ps: return ("killed", g[:-2] + "." + nm + " -> " + ",".join(sorted(ps))[:200])
            admitted.append(nm)
            open(path, "w").write(t[:pr.start()] + "Proof. Admitted." + t[en.end():])
    return ("SURVIVED", "admitted " + ",".join(admitted))

def main():
    a = sys.argv[1:]
    f = a[0]
    j = int(a[a.index("-j") + 1]) if "-j" in a else 2
    only = a[a.index("--def") + 1] if "--def" in a else None
    fs, deps = mu.order()
    files = mu.affected(f, fs, deps)
    rev = graph()
    ms = mutants(f, only)
    print(f, len(ms), "edits", flush=True)
    cnt = {}
    with ThreadPoolExecutor(j) as ex:
        for mt, fu in [(m, ex.submit(run, f, m, files, rev, f[:-2])) for m in ms]:
            k, why = fu.result()
            cnt[k] = cnt.get(k, 0) + 1
            if "-v" in a or k in ("SURVIVED", "error"):
                print(k, mt[0], "line", mt[1], repr(mt[2]), "->", repr(mt[3]), "|", why.replace("\n", " "), flush=True)
    print(cnt)
    for x in os.listdir("/tmp/am"):
        if x.startswith(f[:-2] + "_"): shutil.rmtree("/tmp/am/" + x)
if __name__ == "__main__": main()
