#!/usr/bin/env python3
"""Runs seeded errors against the theorems, in scratch copies outside the repository.

Usage: mutate.py SPEC.json [WORKERS]
SPEC.json is a list of {id, definition, file, old, new, claim, targets}: in theories/<file>.v the
text `old` (must occur exactly once) is replaced by `new`; everything between the edited file and the
Prop files in `targets` is recompiled.  A proof that no longer goes through is replaced by Admitted
and the run continues; a theorem counts as failed when its own proof is gone or when
Print Assumptions shows that it rests on such a lemma.  Needs a complete build in rocq/.
"""
import json, os, re, shutil, subprocess, sys, time
from concurrent.futures import ThreadPoolExecutor
ROOT = os.path.dirname(os.path.dirname(os.path.abspath(__file__)))
ROCQ = os.environ.get("VERIF_SNAPSHOT", os.path.join(ROOT, "rocq")) # a built copy, if the original is being worked on
TH = os.path.join(ROCQ, "theories")
SCRATCH = os.environ.get("VERIF_SCRATCH", "/tmp/mut")
START = re.compile(r"^[ \t]*(?:Local |Global )?(?:Lemma|Theorem|Example|Corollary|Fact|Remark|Proposition)\s+(\w+)", re.M)

def files():
    out = []
    for l in open(os.path.join(ROCQ, "_CoqProject")):
        l = l.strip()
        if l.endswith(".v"):
            out.append(os.path.basename(l)[:-2])
    d, order = deps(out), []
    def visit(f): # every file after those it imports
        if f in order: return
        for g in out:
            if g in d[f]: visit(g)
        order.append(f)
    for f in out: visit(f)
    return order
def deps(fs):
    d = {}
    for f in fs:
        s = set()
        for m in re.finditer(r"From Verif Require (?:Import |Export )?([^.]*)\.", open(os.path.join(TH, f + ".v")).read()):
            s.update(m.group(1).split())
        d[f] = s
    return d
def closure(d, f):
    seen, todo = set(), [f]
    while todo:
        x = todo.pop()
        if x in seen: continue
        seen.add(x); todo.extend(d.get(x, ()))
    return seen

def compile_loop(dir, f, limit=240):
    """compiles; returns (ok, removed names, stdout)"""
    path = os.path.join(dir, f + ".v")
    removed = []
    for _ in range(80):
        r = subprocess.run(["timeout", str(limit), "coqc", "-time", "-Q", ".", "Verif", f + ".v"], cwd=dir, capture_output=True)
        out, err = r.stdout.decode("utf8", "replace"), r.stderr.decode("utf8", "replace")
        if r.returncode == 0:
            return True, removed, out
        raw = open(path, "rb").read()
        m = None
        for m in re.finditer(r'File "\./%s\.v", line (\d+), characters (\d+)-(\d+):\s*\nError' % f, err): pass
        if m:
            lines = raw.split(b"\n")
            pos = sum(len(x) + 1 for x in lines[:int(m.group(1)) - 1]) + int(m.group(2))
        else:
            last = None
            for last in re.finditer(r"^Chars (\d+) - (\d+)", out, re.M): pass
            if last is None: return False, removed, err[-800:]
            pos = int(last.group(2)) + 2
        text = raw.decode("utf8")
        cpos = len(raw[:pos].decode("utf8", "ignore"))
        st = None
        for s in START.finditer(text):
            if s.start() <= cpos: st = s
            else: break
        if st is None: return False, removed, err[-800:]
        pr = re.search(r"\bProof\b", text[st.end():])
        qd = re.search(r"\b(?:Qed|Defined|Admitted)\.", text[st.end():])
        if not qd: return False, removed, err[-800:]
        ps, qe = st.end() + (pr.start() if pr else 0), st.end() + qd.end()
        if cpos >= qe: # error after the proof: not in a lemma
            pa = re.match(r"Print Assumptions \w+\.", text[cpos:])
            if pa:
                text = text[:cpos] + text[cpos + pa.end():]
                open(path, "w").write(text); continue
            return False, removed, err[-800:]
        if "Admitted." in text[ps:qe] or cpos < ps: # the statement itself is gone
            text = text[:st.start()] + text[qe:]
            removed.append(st.group(1) + " (statement)")
        else:
            text = text[:ps] + "Proof. Admitted." + text[qe:]
            removed.append(st.group(1))
        open(path, "w").write(text)
    return False, removed, "too many"

def run(m, fs, d):
    t0 = time.time()
    dir = os.path.join(SCRATCH, m["id"])
    shutil.rmtree(dir, ignore_errors=True)
    os.makedirs(dir)
    need = set()
    for t in m["targets"]: need |= closure(d, t)
    for f in fs:
        if f in need:
            shutil.copy2(os.path.join(TH, f + ".v"), dir); shutil.copy2(os.path.join(TH, f + ".vo"), dir)
    p = os.path.join(dir, m["file"] + ".v")
    text = open(p).read()
    edits = m.get("edits") or [[m["old"], m["new"]]]
    for o, n in edits:
        if text.count(o) != 1:
            return dict(id=m["id"], status="bad edit", detail="%d occurrences of %r" % (text.count(o), o))
        text = text.replace(o, n)
    open(p, "w").write(text)
    failed, allremoved, status = [], [], "ok"
    for f in fs:
        if f in need and m["file"] in closure(d, f):
            ok, removed, out = compile_loop(dir, f)
            allremoved += [(f, x) for x in removed]
            if not ok:
                status = "stopped in " + f
                failed.append(f + " does not compile: " + out[-300:])
                break
            if f.startswith("Prop_"):
                names = set(x.split()[0] for _, x in allremoved)
                txt = open(os.path.join(dir, f + ".v")).read()
                order = re.findall(r"^Print Assumptions (\w+)\.", txt, re.M)
                blocks, cur = [], None
                for line in out.split("\n"):
                    if line.startswith("Chars "):
                        if "[Print~Assumptions" in line:
                            blocks.append(cur or []); 
                        cur = []
                    elif cur is not None: cur.append(line)
                if len(blocks) != len(order): failed.append("(%s: %d blocks, %d theorems)" % (f, len(blocks), len(order)))
                for th, b in zip(order, blocks):
                    words = set(w.split(".")[-1] for w in re.findall(r"^([\w.]+)(?= |$)", "\n".join(b), re.M))
                    if words & names or th in names: failed.append(th)
                failed += [x for g, x in allremoved if g == f and x.split()[0] not in failed]
    shutil.rmtree(dir, ignore_errors=True)
    return dict(id=m["id"], status=status, failed=failed, lemmas=["%s.%s" % x for x in allremoved], seconds=round(time.time() - t0))

if __name__ == "__main__":
    ms = json.load(open(sys.argv[1]))
    fs = files(); d = deps(fs)
    os.makedirs(SCRATCH, exist_ok=True)
    with ThreadPoolExecutor(int(sys.argv[2]) if len(sys.argv) > 2 else 3) as ex:
        for m, r in zip(ms, ex.map(lambda m: run(m, fs, d), ms)):
            print(json.dumps(dict(m, **r)), flush=True)
