#!/usr/bin/env python3
"""Apply wrong-program edits to the model in a scratch copy and report which
theorems still hold.

usage: mutate.py edits.json [--log] [-j N]

edits.json is a list of {"file", "def", "old", "new", "edit", "claim"}: "old" must
occur exactly once in the file after the start of "def" (first occurrence is
taken).  Every lemma whose proof no longer checks is admitted in the scratch
copy, so that the theorems that do not depend on it are still examined; a
theorem counts as failed when its own proof breaks or Print Assumptions shows
that it rests on an admitted lemma.  With --log one line per edit is appended
to seeded/LOG.jsonl."""
import json, os, re, shutil, subprocess, sys
from concurrent.futures import ThreadPoolExecutor
ROOT = os.path.dirname(os.path.dirname(os.path.abspath(__file__)))
TH = os.path.join(ROOT, "rocq", "theories")
HEAD = re.compile(r"^\s*(?:Local |Global )?(Lemma|Theorem|Example|Corollary|Fact|Remark) (\w+)", re.M)

def order():
    fs = [os.path.basename(l.strip()) for l in open(os.path.join(ROOT, "rocq", "_CoqProject")) if l.strip().endswith(".v")]
    deps = {}
    for f in fs:
        t = open(os.path.join(TH, f)).read()
        deps[f] = set()
        for m in re.finditer(r"From Verif Require (?:Import|Export) ([\w\s]+)\.", t):
            deps[f] |= {x + ".v" for x in m.group(1).split()}
    return fs, deps

def affected(f0, fs, deps):
    bad = {f0}
    ch = True
    while ch:
        ch = False
        for f in fs:
            if f not in bad and deps[f] & bad:
                bad.add(f); ch = True
    done, out = set(f for f in fs if f not in bad), []
    while len(out) < len(bad):
        for f in fs:
            if f in bad and f not in done and deps[f] <= done:
                out.append(f); done.add(f)
    return out

def run_one(n, e, fs, deps):
    d = f"/tmp/mut/{n}"
    shutil.rmtree(d, ignore_errors=True)
    shutil.copytree(TH, d)
    p = os.path.join(d, e["file"])
    s = open(p).read()
    i = re.search(r"(Definition|Fixpoint|Inductive|Record) " + re.escape(e["def"]) + r"\b", s)
    if not i: return {"error": "definition not found"}
    k = s.find(e["old"], i.start())
    if k < 0: return {"error": "old text not found"}
    s = s[:k] + e["new"] + s[k + len(e["old"]):]
    open(p, "w").write(s)
    admitted, failed, held, examples = [], [], [], []
    for f in affected(e["file"], fs, deps):
        path = os.path.join(d, f)
        # first without Print Assumptions, which takes most of the time
        full = open(path).read()
        pas = re.findall(r"^Print Assumptions \w+\.", full, re.M)
        if f.startswith("P_"):
            open(path, "w").write(re.sub(r"(?m)^Print Assumptions \w+\.", "", full))
        while True:
            try:
                r = subprocess.run(["coqc", "-set", "Default Timeout=" + os.environ.get("MUT_SENTENCE", "150"), "-Q", ".", "Verif", f], cwd=d, capture_output=True, text=True, timeout=int(os.environ.get("MUT_TIMEOUT", "400")))
            except subprocess.TimeoutExpired:
                return {"error": "timeout in " + f, "admitted": admitted}
            if r.returncode == 0:
                if not pas or not f.startswith("P_"): break
                open(path, "a").write("\n" + "\n".join(pas) + "\n"); pas = []
                continue
            ms = list(re.finditer(r'File "\./' + re.escape(f) + r'", line (\d+)', r.stderr))
            if not ms: return {"error": r.stderr[:300]}
            line = int(ms[-1].group(1))
            t = open(path).read()
            pos = sum(len(l) + 1 for l in t.split("\n")[:line]) - 1
            hs = [h for h in HEAD.finditer(t) if h.start() <= pos]
            if not hs: return {"error": f"{f}:{line} outside proofs: " + r.stderr[:400]}
            h = hs[-1]
            pr = re.compile(r"\bProof\b").search(t, h.start())
            en = re.compile(r"\b(Qed|Defined)\.").search(t, h.start())
            start_line = t.count("\n", 0, pr.start()) + 1
            end_line = t.count("\n", 0, en.end()) + 1
            if not (start_line <= line <= end_line):
                return {"error": f"{f}:{line} outside proofs: " + r.stderr[:400], "admitted": admitted}
            name = h.group(2)
            if h.group(1) == "Example": examples.append(name)
            elif f.startswith("P_") and h.group(1) == "Theorem": failed.append(name)
            else: admitted.append(name)
            t = t[:pr.start()] + "Proof. Admitted." + t[en.end():]
            open(path, "w").write(t)
        if f.startswith("P_"):
            t = open(path).read()
            names = re.findall(r"^Print Assumptions (\w+)\.", t, re.M)
            blocks = re.split(r"(?m)^(?=Closed under the global context|Axioms:)", r.stdout)[1:]
            for nm, b in zip(names, blocks):
                if b.startswith("Closed"):
                    if nm not in failed: held.append(nm)
                elif nm not in failed: failed.append(nm)
    shutil.rmtree(d, ignore_errors=True)
    return {"failed": failed, "held": held, "lemmas": admitted, "examples": examples}

def main():
    a = sys.argv[1:]
    log = "--log" in a
    j = int(a[a.index("-j") + 1]) if "-j" in a else 3
    es = json.load(open(a[0]))
    fs, deps = order()
    with ThreadPoolExecutor(j) as ex:
        futs = [ex.submit(run_one, n, e, fs, deps) for n, e in enumerate(es)]
        for e, fu in zip(es, futs):
            r = fu.result()
            print("==", e["def"], "|", e["edit"], "|", e["claim"])
            if "error" in r:
                print("   ERROR", r["error"], r.get("admitted")); continue
            print("   failed:", r["failed"], "\n   examples:", r["examples"], "\n   lemmas:", r["lemmas"])
            exp = e.get("expect")
            if not r["failed"]: print("   *** NOTHING FAILED")
            sys.stdout.flush()
            if log:
                with open(os.path.join(ROOT, "seeded", "LOG.jsonl"), "a") as o:
                    o.write(json.dumps({"definition": e["file"] + ": " + e["def"], "edit": e["edit"], "claim": e["claim"],
                        "failed": r["failed"], "examples_failed": r["examples"], "tightened": e.get("tightened", [])}) + "\n")
if __name__ == "__main__": main()
