#!/usr/bin/env python3
"""Test theorems against wrong programs.

usage: seed.py MUTATIONS.json [jobs] [quick]
With quick only the files that hold the expected theorems, and what they need, are rebuilt (checked_files in the log).
Each mutation {"file","definition","old","new","claim","expect":[theorems]} is applied to a scratch copy of
rocq/ under /tmp/seedN.  Every lemma whose proof breaks is replaced by Admitted, so that Print Assumptions
tells which theorems no longer hold.  One line per mutation is appended to seeded/LOG.jsonl: expect = the
theorems that state the broken claim; survived = those of them that still prove."""
import json, os, re, shutil, subprocess, sys
from concurrent.futures import ThreadPoolExecutor
ROOT = os.path.abspath(os.path.join(os.path.dirname(__file__), ".."))
SRC = ROOT + "/rocq"
files = [l.strip() for l in open(SRC + "/_CoqProject") if l.strip().endswith(".v")]
deps = {}
for f in files:
    t = open(f"{SRC}/{f}").read()
    d = set()
    for m in re.finditer(r"From Verif Require (?:Import |Export )?([^.]*)\.", t):
        d |= {f"theories/{x}.v" for x in m.group(1).split()}
    deps[f] = d
def topo(fs):
    done, out = set(), []
    def go(f):
        if f in done or f not in deps: return
        done.add(f)
        for g in sorted(deps[f]): go(g)
        out.append(f)
    for f in fs: go(f)
    return out
files = topo(files)
def affected(f):
    a = {f}
    for g in files:
        if deps[g] & a: a.add(g)
    return [g for g in files if g in a]
QUICK = len(sys.argv) > 3 and sys.argv[3] == "quick"
def closure(fs):
    a = set(fs)
    while True:
        b = a.union(*[deps[g] for g in a if g in deps]) if a else a
        if b == a: return a
        a = b
def scope(mu):
    """affected files; with quick, only those the expected theorems depend on"""
    a = affected(f"theories/{mu['file']}.v")
    if not QUICK: return a
    pat = re.compile(r"^Theorem (?:" + "|".join(re.escape(e) for e in mu["expect"]) + ")", re.M)
    need = closure(g for g in a if pat.search(open(f"{SRC}/{g}").read()))
    return [g for g in a if g in need]
ITEM = re.compile(r"^\s*(?:Theorem|Lemma|Example|Corollary|Fact|Remark)\s+([\w']+)")
def run(job):
    k, mu = job
    d = f"/tmp/seed{k}"
    shutil.rmtree(d, ignore_errors=True); shutil.copytree(SRC, d)
    p = f"{d}/theories/{mu['file']}.v"; s = open(p).read()
    if s.count(mu["old"]) != 1: return mu, {"error": f"pattern occurs {s.count(mu['old'])} times"}
    open(p, "w").write(s.replace(mu["old"], mu["new"]))
    broken, thm_bad = [], []
    for f in scope(mu):
        path = f"{d}/{f}"
        for _ in range(120):
            try: r = subprocess.run(["timeout", "400", "coqc", "-Q", "theories", "Verif", f], cwd=d, capture_output=True, text=True)
            except Exception as e: return mu, {"error": str(e)}
            if r.returncode == 0: break
            m = re.search(r'line (\d+), characters', r.stderr)
            if not m:
                return mu, {"error": "no position: " + f + (r.stderr or "timeout")[-300:], "broken": broken}
            n = int(re.findall(r'line (\d+), characters', r.stderr)[-1]) - 1
            L = open(path).read().split("\n")
            if L[n].startswith("Print Assumptions"):
                thm_bad.append(L[n].split()[-1].rstrip(".")); L[n] = ""; open(path, "w").write("\n".join(L)); continue
            i = n
            while i >= 0 and not ITEM.match(L[i]): i -= 1
            # definitions between the item and the error mean that a definition broke
            if i < 0 or any(re.match(r"\s*(Qed|Defined|Admitted)\.|.*(Qed|Defined)\.\s*$", L[x]) for x in range(i, n)):
                return mu, {"error": f"definition broke: {f}:{n+1} {r.stderr[-300:]}", "broken": broken}
            name = ITEM.match(L[i]).group(1)
            j = n
            while not re.search(r"(Qed|Defined)\.\s*$", L[j]): j += 1
            pr = i
            while pr <= j and not re.match(r"\s*Proof\b|.*\bProof\.", L[pr]): pr += 1
            if name in broken or pr > n:   # the statement itself no longer makes sense
                L[i:j+1] = [""] * (j + 1 - i); broken.append(name + " (statement)")
            else:
                head = L[pr][:L[pr].index("Proof")]
                using = re.search(r"Proof using [\w ]+\.", L[pr])
                L[pr:j+1] = [head + (using.group(0) + " " if using else "") + "Admitted."] + [""] * (j - pr)
                broken.append(name)
            open(path, "w").write("\n".join(L))
        else: return mu, {"error": "too many rounds", "broken": broken}
        names = re.findall(r"^Print Assumptions ([\w']+)\.", open(path).read(), re.M)
        outs = re.findall(r"^(Closed under the global context|Axioms:)", r.stdout, re.M)
        if len(names) == len(outs): thm_bad += [x for x, o in zip(names, outs) if o != "Closed under the global context"]
        elif names: return mu, {"error": f"{f}: {len(names)} names {len(outs)} outputs"}
    shutil.rmtree(d, ignore_errors=True)
    return mu, {"broken": broken, "failed": sorted(set(thm_bad))}
def main():
    mus = json.load(open(sys.argv[1])); jobs = int(sys.argv[2]) if len(sys.argv) > 2 else 3
    with ThreadPoolExecutor(jobs) as ex:
        for mu, res in ex.map(run, enumerate(mus)):
            if "error" in res:
                print("ERROR", mu["definition"], res["error"], flush=True); continue
            exp = mu.get("expect", [])
            surv = [e for e in exp if not any(x == e or x.startswith(e) for x in res["failed"])]
            print(("SURVIVED " + str(surv) if surv else "ok"), mu["definition"], "|", mu["claim"], "| failed:", res["failed"], "| broken:", res["broken"][:6], flush=True)
            rec = {"definition": f"{mu['file']}.v:{mu['definition']}", "edit": f"{mu['old']}  ==>  {mu['new']}", "claim": mu["claim"],
                   "theorems_failed": res["failed"], "lemmas_failed": res["broken"], "expected_to_fail": exp, "survived": surv, "tightened": mu.get("tightened", [])}
            if QUICK: rec["checked_files"] = [os.path.basename(g) for g in scope(mu)]
            with open(f"{ROOT}/seeded/LOG.jsonl", "a") as f: f.write(json.dumps(rec) + "\n")
main()
