#!/usr/bin/env python3
"""Recheck the proofs against edited models.

usage: mutants.py BASE EDITS.json RESULTS.jsonl
BASE: a compiled copy of rocq/.  EDITS.json: a list of
{file, definition, edit, old, new, claim, break: [property ids]}.
Each edit is applied to a scratch copy.  Statements are recompiled (.vos), then
every proof of every file that depends on the edit is rechecked (.vok); a proof
that no longer checks is replaced by Admitted and checking goes on.  A property
theorem counts as failed when its proof, or one it uses (.glob files), broke."""
import json, os, re, subprocess, sys, shutil, glob, tempfile
from concurrent.futures import ThreadPoolExecutor, as_completed
J = int(os.environ.get("MJ", "3"))
FLAGS = None

def flags(d):
    out = []
    for l in open(d + "/_CoqProject"):
        l = l.strip()
        if l.startswith("-arg"): out += l.split()[1:]
        elif l.startswith("-"): out += l.split()
    return out

def graph(d):
    fs = sorted(os.path.basename(f)[:-2] for f in glob.glob(d + "/theories/*.v"))
    deps = {}
    for f in fs:
        s = open(f"{d}/theories/{f}.v").read()
        deps[f] = set()
        for m in re.finditer(r"From Verif Require (?:Import |Export )?([^.]*)\.", s):
            deps[f] |= {x for x in m.group(1).split() if x in fs}
    return deps

def order(deps):
    seen, out = set(), []
    def go(f):
        if f in seen: return
        seen.add(f)
        for g in sorted(deps[f]): go(g)
        out.append(f)
    for f in sorted(deps): go(f)
    return out

HEAD = re.compile(r"^\s*(?:Local |Global |#\[.*\] )*(Lemma|Theorem|Example|Corollary|Fact|Remark|Instance)\s+([A-Za-z0-9_']+)")
def admit(path, line):
    L = open(path).read().split("\n")
    i = line - 1
    while i >= 0 and not HEAD.match(L[i]): i -= 1
    if i < 0: return None
    name = HEAD.match(L[i]).group(2)
    j = i
    while j < len(L) and "Proof" not in L[j]: j += 1
    k = j
    while k < len(L) and not re.search(r"\b(Qed|Defined)\.", L[k]): k += 1
    if k >= len(L) or k < line - 1 or j > line - 1: return None
    a, b = L[j].index("Proof"), re.search(r"\b(Qed|Defined)\.", L[k]).end()
    pre, post = L[j][:a], L[k][b:]
    L[j:k + 1] = [pre + "Admitted."] + [""] * (k - j - 1) + ([post] if k > j else [])
    if k == j: L[j] += post
    open(path, "w").write("\n".join(L))
    return name

def coqc(w, f, mode):
    try:
        r = subprocess.run(["coqc", mode, "-set", "Default Timeout=60"] + FLAGS + [f"theories/{f}.v"], cwd=w, capture_output=True, text=True, errors="replace", timeout=900)
    except subprocess.TimeoutExpired:
        return ("timeout", "")
    if r.returncode == 0: return None
    m = re.search(r'File "[^"]*%s\.v", line (\d+), characters [^\n]*\n(?:Error|Timeout)' % f, r.stderr)
    return (int(m.group(1)) if m else "?", r.stderr[-600:])

def settle(w, f, mode, broken):
    for _ in range(80):
        e = coqc(w, f, mode)
        if e is None: return None
        if not isinstance(e[0], int): return f"{f}: {e}"
        n = admit(f"{w}/theories/{f}.v", e[0])
        if n is None: return f"not in a proof: {f}:{e[0]} {e[1]}"
        broken.append(f + "." + n)
    return f"{f}: too many broken proofs"

def references(base):
    """lemma -> set of names its statement and proof mention, from the .glob files."""
    uses = {}
    for g in glob.glob(base + "/theories/*.glob"):
        mod = os.path.basename(g)[:-5]
        src = open(f"{base}/theories/{mod}.v", "rb").read()
        starts = []
        for m in re.finditer(rb"(?m)^\s*(?:Local |Global |#\[.*\] )*(?:Lemma|Theorem|Example|Corollary|Fact|Remark|Instance|Definition|Fixpoint)\s+([A-Za-z0-9_']+)", src):
            starts.append((m.start(), mod + "." + m.group(1).decode()))
        starts.append((len(src) + 1, None))
        idx = 0
        for l in open(g, errors="replace"):
            m = re.match(r"R(\d+):\d+ (\S+) (\S+) (\S+) (\S+)", l)
            if not m: continue
            pos, lib, name = int(m.group(1)), m.group(2), m.group(4)
            while idx > 0 and starts[idx][0] > pos: idx -= 1
            while idx + 1 < len(starts) and starts[idx + 1][0] <= pos: idx += 1
            if starts[idx][1] and starts[idx][0] <= pos and lib.startswith("Verif."):
                uses.setdefault(starts[idx][1], set()).add(lib[6:] + "." + name.split(".")[-1])
    return uses

def tainted(uses, broken):
    bad = set(broken)
    back = {}
    for a, bs in uses.items():
        for b in bs: back.setdefault(b, set()).add(a)
    todo = list(bad)
    while todo:
        x = todo.pop()
        for y in back.get(x, ()):
            if y not in bad: bad.add(y); todo.append(y)
    return bad

def run(base, e, deps, topo, uses, theorems):
    w = tempfile.mkdtemp(prefix="mut")
    try:
        shutil.rmtree(w); subprocess.run(["cp", "-a", base, w], check=True)
        p = f"{w}/theories/{e['file']}"
        s = open(p).read()
        if s.count(e["old"]) != 1: return {"error": "old text found %d times" % s.count(e["old"])}
        open(p, "w").write(s.replace(e["old"], e["new"]))
        hit = {e["file"][:-2]}
        for f in topo:
            if deps[f] & hit: hit.add(f)
        aff = [f for f in topo if f in hit]
        for f in aff:
            for x in (".vo", ".vos", ".vok"):
                try: os.remove(f"{w}/theories/{f}{x}")
                except FileNotFoundError: pass
            t = f"{w}/theories/{f}.v"
            s = open(t).read()
            s2 = re.sub(r"(?m)^Print Assumptions \S+\.", "", s)
            if s2 != s: open(t, "w").write(s2)
        broken = []
        with ThreadPoolExecutor(J) as ex:
            done, pend, rest = set(topo) - set(aff), {}, list(aff)
            while rest or pend:
                for f in [f for f in rest if deps[f] <= done]:
                    rest.remove(f); pend[ex.submit(settle, w, f, "-vos", broken)] = f
                for fu in as_completed(list(pend)):
                    f = pend.pop(fu)
                    if fu.result(): return {"error": fu.result(), "broken": broken}
                    done.add(f); break
            fus = {ex.submit(settle, w, f, "-vok", broken): f for f in aff}
            errs = [fu.result() for fu in as_completed(fus) if fu.result()]
            if errs: return {"error": errs, "broken": broken}
        bad = tainted(uses, broken)
        return {"broken": sorted(broken), "failed": sorted({x.split(".")[1] for x in bad} & theorems)}
    finally:
        shutil.rmtree(w, ignore_errors=True)

def main():
    global FLAGS
    base, edits, out = sys.argv[1], json.load(open(sys.argv[2])), sys.argv[3]
    FLAGS = flags(base)
    deps = graph(base); topo = order(deps); uses = references(base)
    theorems = set()
    for f in glob.glob(base + "/theories/T*.v"):
        theorems |= set(re.findall(r"(?m)^Theorem (\w+)", open(f).read()))
    for e in edits:
        r = run(base, e, deps, topo, uses, theorems)
        rec = {k: e.get(k) for k in ("file", "definition", "edit", "claim", "break")}
        rec.update(r)
        if e.get("break") and "failed" in r:
            rec["missed"] = [b for b in e["break"] if not any(f.startswith(b) for f in r["failed"])]
        with open(out, "a") as f: f.write(json.dumps(rec) + "\n")
        print(e["definition"], "|", e["edit"], "|", r.get("error") or "%d proofs broken" % len(r["broken"]), "| failed:", " ".join(r.get("failed", [])), "| missed:", rec.get("missed"), flush=True)
main()
