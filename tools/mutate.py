#!/usr/bin/env python3
"""Run the proofs against edited models, outside /verif.

usage: mutate.py WORKDIR NAME...      (names from seeded/mutations.py, or 'all')

For every mutation: copy the built tree, apply the edit to one model file, recompile every file that
depends on it.  When a proof fails it is replaced by [Admitted] in the copy and the build goes on, so that
in the end [Print Assumptions] tells exactly which property theorems rest on a broken proof."""
import os, re, subprocess, sys, json, shutil, time
from concurrent.futures import ThreadPoolExecutor, FIRST_COMPLETED, wait
HERE = os.path.dirname(os.path.dirname(os.path.abspath(__file__)))
SRC = os.path.join(HERE, "rocq", "theories")
STD = {"ClassicalDedekindReals.sig_not_dec", "ClassicalDedekindReals.sig_forall_dec", "classic",
       "FunctionalExtensionality.functional_extensionality_dep", "functional_extensionality_dep", "sig_not_dec", "sig_forall_dec",
       "Classical_Prop.classic"}
VERN = re.compile(r"^\s*(?:#\[[^\]]*\]\s*)?(?:Local\s+|Global\s+)?(Lemma|Theorem|Example|Corollary|Fact|Remark|Instance)\s+([\w']+)", re.M)

def deps():
    out = subprocess.run(["coqdep", "-Q", ".", "Verif"] + sorted(f for f in os.listdir(SRC) if f.endswith(".v")),
                         cwd=SRC, capture_output=True, text=True).stdout
    d = {}
    for line in out.splitlines():
        if ":" not in line: continue
        l, r = line.split(":", 1)
        t = [x for x in l.split() if x.endswith(".vo")]
        if not t: continue
        d[t[0][:-3]] = [x[:-3] for x in r.split() if x.endswith(".vo")]
    return d

def admit(text, pos):
    """Replace the proof containing position [pos] by Admitted; returns (text, name) or None."""
    ms = [m for m in VERN.finditer(text) if m.start() <= pos]
    if not ms: return None
    m = ms[-1]
    q = re.compile(r"(Proof(?: using[^.]*)?\.)|(?<![\w'])(Qed|Defined)\.").search(text, m.end())
    if not q: return None
    start = q.start()
    e = re.compile(r"(?<![\w'])(Qed|Defined)\.").search(text, start)
    if not e or e.end() < pos - 5: return None
    return text[:start] + "Proof. Admitted." + text[e.end():], m.group(2)

def compile_file(work, f, log):
    p = os.path.join(work, f + ".v")
    fails = []
    while True:
        r = subprocess.run("ulimit -v 7000000; timeout 1200 coqc -q -Q . Verif %s.v" % f, shell=True, cwd=work,
                           capture_output=True, text=True)
        if r.returncode == 0:
            return fails, r.stdout
        m = re.search(r'File "\./%s\.v", line (\d+), characters (\d+)-(\d+):\s*\n\s*Error' % re.escape(f), r.stderr)
        if not m:
            log.append((f, "fatal: " + r.stderr[-300:])); return None, r.stderr
        text = open(p).read()
        lines = text.split("\n")
        # characters are bytes
        pos = sum(len(l) + 1 for l in lines[:int(m.group(1)) - 1]) + int(m.group(2))
        a = admit(text, pos)
        if not a:
            log.append((f, "not in a proof, line %s: %s" % (m.group(1), r.stderr[-300:]))); return None, r.stderr
        text, name = a
        fails.append(name)
        open(p, "w").write(text)

def run(work, mut, d, workers=4):
    if os.path.exists(work): shutil.rmtree(work)
    shutil.copytree(SRC, work)
    target = mut["file"]
    p = os.path.join(work, target + ".v")
    text = open(p).read()
    n = mut.get("count", 1)
    assert text.count(mut["old"]) == n, (mut["name"], text.count(mut["old"]))
    open(p, "w").write(text.replace(mut["old"], mut["new"]))
    dirty = {target}
    while True:
        more = {f for f in d if f not in dirty and any(x in dirty for x in d[f])}
        if not more: break
        dirty |= more
    props = mut.get("props") or [f for f in d if f.startswith("Props")]
    need, stack = set(), list(props)
    while stack:
        f = stack.pop()
        if f not in need:
            need.add(f); stack += d[f]
    dirty &= need
    for f in dirty:
        q = os.path.join(work, f + ".v")
        t = open(q).read()
        open(q, "w").write("Set Default Timeout 150. " + t)
        for ext in (".vo", ".vok", ".vos", ".glob"):
            try: os.remove(os.path.join(work, f + ext))
            except FileNotFoundError: pass
    fails, log, bad, surv = {}, [], {}, []
    done, running, todo = set(d) - dirty, {}, set(dirty)
    dead = set()
    with ThreadPoolExecutor(workers) as ex:
        while todo or running:
            for f in sorted(todo):
                if any(x in dead for x in d[f]):
                    todo.discard(f); dead.add(f); log.append((f, "skipped"))
                elif all(x in done for x in d[f]) and len(running) < workers:
                    todo.discard(f); running[ex.submit(compile_file, work, f, log)] = f
            if not running:
                if todo and not any(all(x in done or x in dead for x in d[f]) for f in todo): break
                continue
            c, _ = wait(list(running), return_when=FIRST_COMPLETED)
            for fu in c:
                f = running.pop(fu)
                fl, out = fu.result()
                if fl is None: dead.add(f); continue
                done.add(f)
                if fl: fails[f] = fl
                if f.startswith("Props"):
                    names = re.findall(r"^Print Assumptions (\w+)\.", open(os.path.join(work, f + ".v")).read(), re.M)
                    blocks = re.split(r"(?m)^(?=Closed under the global context|Axioms:)", out)[1:]
                    if len(blocks) != len(names): log.append((f, "blocks %d names %d" % (len(blocks), len(names))))
                    for nme, b in zip(names, blocks):
                        ax = set(re.findall(r"(?m)^([\w.']+)\s*:", b)) - {"Axioms"}
                        ax = {x for x in ax if x not in STD and x.split(".")[-1] not in STD}
                        if ax: bad[nme] = sorted(ax)
                        else: surv.append(nme)
    return dict(name=mut["name"], broken_proofs=fails, theorems_failed=sorted(bad), why=bad, survived=sorted(surv), log=log)

if __name__ == "__main__":
    sys.path.insert(0, os.path.join(HERE, "seeded"))
    from mutations import MUTATIONS
    base = sys.argv[1]
    names = sys.argv[2:]
    os.makedirs(base, exist_ok=True)
    d = deps()
    for m in MUTATIONS:
        if names != ["all"] and m["name"] not in names: continue
        out = os.path.join(base, m["name"] + ".json")
        if names == ["all"] and os.path.exists(out): continue
        t = time.time()
        r = run(os.path.join(base, "work"), m, d)
        r["wall"] = round(time.time() - t)
        json.dump(r, open(out, "w"), indent=1)
        print(m["name"], "wall", r["wall"], "failed", len(r["theorems_failed"]), "survived", len(r["survived"]), r["log"][:3], flush=True)
