#!/usr/bin/env python3
"""run.py PART [WORKERS] [OUT] [--check]: runs the edits of PART.py with mutate.py, appends results to OUT, resumes."""
import sys, os, json, importlib, hashlib
from concurrent.futures import ThreadPoolExecutor
here = os.path.dirname(os.path.abspath(__file__)); sys.path[:0] = [here, os.path.dirname(here)]
import mutate
args = [a for a in sys.argv[1:] if not a.startswith("--")]
part = args[0]; workers = int(args[1]) if len(args) > 1 else 3
out = args[2] if len(args) > 2 else "/tmp/mut_%s.jsonl" % part
M = importlib.import_module(part).M
for x in M: x["id"] = hashlib.md5(json.dumps([x["file"], x["old"], x["new"]]).encode()).hexdigest()[:10]
assert len(set(x["id"] for x in M)) == len(M)
def applicable(x):
    p = os.path.join(mutate.TH, x["file"] + ".v")
    n = open(p).read().count(x["old"]) if os.path.exists(p) else 0
    if n != 1: print("bad edit", n, x["definition"], repr(x["old"]))
    return n == 1
M = [x for x in M if applicable(x)]
if "--check" in sys.argv: sys.exit()
done = set(json.loads(l)["id"] for l in open(out)) if os.path.exists(out) else set()
fs = mutate.files(); d = mutate.deps(fs)
os.makedirs(mutate.SCRATCH, exist_ok=True)
todo = [x for x in M if x["id"] not in done]
with ThreadPoolExecutor(workers) as ex, open(out, "a") as f:
    for x, r in zip(todo, ex.map(lambda x: mutate.run(x, fs, d), todo)):
        f.write(json.dumps(dict(x, **r)) + "\n"); f.flush()
