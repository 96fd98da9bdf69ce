#!/usr/bin/env python3
"""Seeded-fault testing.  Usage: mutate.py MUTANTS.json OUT.jsonl [workers]

Every mutant {id, file, definition, old, new, claim} is applied to a scratch copy of rocq/ outside this
directory.  The copy is rebuilt; a proof that fails is recorded and skipped (with Admitted, in the scratch copy
only) so that the build can go on and find the other failures.  The theorems that a failed lemma brings down
are found by following the references recorded in the .glob files of the clean build."""
import sys, os, re, json, shutil, subprocess, collections, time, threading
from concurrent.futures import ThreadPoolExecutor
home = os.path.abspath(os.path.join(os.path.dirname(os.path.abspath(__file__)), ".."))
root = "/root/mut/base/rocq"   # a clean build of the last commit
START = re.compile(r"^\s*(?:Local |Global |#\[.*?\]\s*)?(Lemma|Theorem|Example|Corollary|Fact|Instance|Definition|Fixpoint|Program Definition)\s+(\w+)", re.M)

def closure():
    """name -> set of theorems in Properties*.v that use it, directly or not"""
    users = collections.defaultdict(set)
    for f in os.listdir(os.path.join(root, "theories")):
        if not f.endswith(".glob"): continue
        mod = f[:-5]; defs = []; refs = []
        for line in open(os.path.join(root, "theories", f)):
            m = re.match(r"(prf|def|thm|inst|ex|lem) (\d+):\d+ \S+ (\S+)", line)
            if m: defs.append((int(m[2]), m[3])); continue
            m = re.match(r"R(\d+):\d+ Verif\.(\w+) \S+ (\S+) (\w+)", line)
            if m: refs.append((int(m[1]), m[2], m[3]))
        defs.sort()
        import bisect
        starts = [d[0] for d in defs]
        for pos, rm, name in refs:
            i = bisect.bisect_right(starts, pos) - 1
            if i >= 0: users[(rm, name)].add((mod, defs[i][1]))
    def up(mod, name):
        seen = set(); todo = [(mod, name)]
        while todo:
            x = todo.pop()
            if x in seen: continue
            seen.add(x); todo += users[x]
        return sorted(n for m, n in seen if m.startswith("Properties"))
    return up

def enclosing(src, line):
    pos = sum(len(l) + 1 for l in src.split("\n")[:line - 1]) + 1
    last = None
    for m in START.finditer(src):
        if m.start() <= pos + 200 and src.count("\n", 0, m.start()) < line: last = m
    return last

def deps():
    """files in an order in which they can be compiled, and for each the files it needs"""
    out = subprocess.run("coqdep -Q theories Verif -sort theories/*.v", shell=True, cwd=root, capture_output=True, text=True).stdout.split()
    need = {}
    for line in subprocess.run("coqdep -Q theories Verif theories/*.v", shell=True, cwd=root, capture_output=True, text=True).stdout.split("\n"):
        m = re.match(r"theories/(\w+)\.vo .*?:(.*)", line)
        if m: need[m[1]] = set(re.findall(r"theories/(\w+)\.vo", m[2])) - {m[1]}
    order = [os.path.basename(x)[:-2] for x in out]
    return order, need

def coqc(d, mod, limit):
    t = time.time()
    r = subprocess.run(["timeout", str(int(limit)), "coqc", "-q", "-w", "none", "-Q", "theories", "Verif", "theories/%s.v" % mod], cwd=d, capture_output=True, text=True)
    return r, time.time() - t

def run(mut, up, base, order, need, secs):
    d = os.path.join(base, mut["id"]); shutil.rmtree(d, ignore_errors=True)
    subprocess.run(["cp", "-a", root, d], check=True)
    p = os.path.join(d, "theories", mut["file"]); s = open(p).read()
    if s.count(mut["old"]) != 1:
        return dict(mut, error="edit matches %d times" % s.count(mut["old"]))
    open(p, "w").write(s.replace(mut["old"], mut["new"]))
    failed = []; notes = []; redo = {mut["file"][:-2]}; dead = set()
    for mod in order:
        if mod not in redo and not (need[mod] & redo): continue
        redo.add(mod)
        if need[mod] & dead: dead.add(mod); continue
        for rnd in range(40):
            r, _ = coqc(d, mod, max(60, 4 * secs[mod]))
            if r.returncode == 0: break
            if r.returncode == 124: notes.append("%s: not compiled within %d times the usual time" % (mod, 4)); dead.add(mod); break
            m = re.search(r'line (\d+), characters', r.stderr)
            if m is None: notes.append(mod + ": " + r.stderr[-200:]); dead.add(mod); break
            q = os.path.join(d, "theories", mod + ".v"); src = open(q).read()
            m = enclosing(src, int(m[1]))
            if m is None: notes.append("error outside a lemma in " + mod); dead.add(mod); break
            body = re.compile(r"Proof(?: using[^.]*)?\.(?=\s)(.*?)\b(Qed|Defined)\.", re.S).search(src, m.start())
            nxt = START.search(src, m.end())
            failed.append((mod, m[2]))
            if body is None or (nxt and body.start() > nxt.start()):
                notes.append("the definition or statement %s.%s no longer type-checks" % (mod, m[2])); dead.add(mod); break
            open(q, "w").write(src[:body.start()] + "Admitted." + src[body.end():])
    props = set()
    for mod, name in failed:
        if mod.startswith("Properties"): props.add(name)
        props |= set(up(mod, name))
    if dead: notes.append("not reached: " + ", ".join(sorted(dead)))
    shutil.rmtree(d, ignore_errors=True)
    return dict(mut, failed=["%s.%s" % x for x in failed], theorems=sorted(props), note="; ".join(notes))

def main():
    muts = json.load(open(sys.argv[1])); out = sys.argv[2]; w = int(sys.argv[3]) if len(sys.argv) > 3 else 2
    done = {json.loads(l)["id"] for l in open(out)} if os.path.exists(out) else set()
    base = "/root/mut"; shutil.rmtree(base, ignore_errors=True); os.makedirs(base + "/base")
    subprocess.run("git -C %s archive HEAD rocq | tar x -C %s/base" % (home, base), shell=True, check=True)
    order, need = deps(); secs = {}
    for mod in order:
        r, secs[mod] = coqc(root, mod, 2000); assert r.returncode == 0, mod
    print("base", int(sum(secs.values())), sorted((int(t), m) for m, t in secs.items())[-8:], flush=True)
    up = closure(); lock = threading.Lock()
    def one(m):
        r = run(m, up, base, order, need, secs)
        with lock:
            with open(out, "a") as f: f.write(json.dumps(r) + "\n")
            print(r["id"], r.get("error") or (len(r["failed"]), r["theorems"][:6], r["note"]), flush=True)
    with ThreadPoolExecutor(w) as ex: list(ex.map(one, [m for m in muts if m["id"] not in done]))
main()
