#!/usr/bin/env python3
"""mklog.py: writes seeded/LOG.jsonl from the results of run.py and automutate.py.

Reads /tmp/mut_*.jsonl (run.py) and /tmp/am*_*.jsonl (automutate.py), if present, and old_*.jsonl in /tmp:
the same edits run against an earlier commit.  One line per attempt:
  definition, edit, claim (what the edit breaks), failed (theorems whose proof no longer goes through),
  tightened (theorems of the broken claim that were added or changed because the edit, or the reading that
  led to it, showed the earlier statement to be too weak), note.
A failing proof is not by itself a proof that the statement has become false; a surviving edit is listed as such.
"""
import glob, json, os, re, sys
here = os.path.dirname(os.path.abspath(__file__)); root = os.path.dirname(os.path.dirname(here))
sys.path.insert(0, here)
from labels import RELABEL, TIGHTENED, ADDED, HARMLESS, SURVIVORS
TH = os.path.join(root, "rocq", "theories")
def load(f): return [json.loads(l) for l in open(f)] if os.path.exists(f) else []
def cid(claim): return re.match(r"C\d+", claim).group(0)
out = []
# --- hand-written edits
for f in sorted(glob.glob("/tmp/mut_*.jsonl")):
    part = re.search(r"mut_(\w+)\.jsonl", f).group(1)
    old = {r["id"]: r for r in load("/tmp/old_%s.jsonl" % part)}
    for r in load(f):
        if r["status"] != "ok":
            out.append(dict(definition=r["definition"], file=r["file"] + ".v", edit=[r.get("old"), r.get("new")], claim=r["claim"],
                            failed=r.get("failed", []), tightened=[], note="run " + r["status"])); continue
        claim, note = r["claim"], []
        if r["id"] in RELABEL:
            claim = RELABEL[r["id"]] + claim[claim.index(":"):]
            note.append("first filed under %s, whose statement does not speak of this" % cid(r["claim"]))
        c = cid(claim)
        failed = [t for t in r["failed"] if re.match(r"C\d+_", t)]
        other = [t for t in r["failed"] if t not in failed]
        tight = []
        if r["id"] in TIGHTENED:
            tight, n = TIGHTENED[r["id"]]; note.append(n)
        elif r["id"] in old and old[r["id"]]["status"] == "ok":
            o = old[r["id"]]
            if not any(t.startswith(c + "_") for t in o["failed"]):
                tight = [t for t in failed if t.startswith(c + "_")]
                note.append("run against commit f5f37b4, before the tightening, no theorem of %s failed%s" % (c, " and no other theorem either" if not o["failed"] else ""))
        if other: note.append("helper statements gone: " + ", ".join(other)[:300])
        if not failed: note.append("SURVIVED" + (": " + HARMLESS[r["id"]] if r["id"] in HARMLESS else ""))
        out.append(dict(definition=r["definition"], file=r["file"] + ".v", edit=[r["old"], r["new"]], claim=claim, failed=failed,
                        first_failing_lemmas=r["lemmas"][:3], tightened=tight, note="; ".join(note)))
# --- systematic edits
thm = {}
PAT = re.compile(r"^[ \t]*(?:Lemma|Theorem|Example|Corollary)\s+(\w+)", re.M)
body = {}
for f in glob.glob(TH + "/*.v"):
    t = open(f).read(); ms = list(PAT.finditer(t))
    for k, m in enumerate(ms):
        body[m.group(1)] = t[m.end():ms[k + 1].start() if k + 1 < len(ms) else len(t)]
words = {n: set(re.findall(r"\w+", b)) for n, b in body.items()}
def users(lemma):
    seen, todo = {lemma}, [lemma]
    while todo:
        x = todo.pop()
        for n, w in words.items():
            if n not in seen and x in w: seen.add(n); todo.append(n)
    return sorted(n for n in seen if re.match(r"C\d+_", n))
cache = {}
logged = set()
for f in sorted(glob.glob("/tmp/am*_*.jsonl")):
    for r in load(f):
        key = (r["file"], r["definition"], r["line"], r["old"], r["new"], r["status"])
        if key in logged: continue # the same edit with the same outcome at a later commit
        logged.add(key)
        if r["status"] == "invalid": continue
        if r["status"] == "killed" and not r["lemma"]: continue # the build stopped outside a proof: says nothing
        d = dict(definition=r["definition"], file=r["file"] + ".v", edit=["line %d: %s" % (r["line"], r["old"]), r["new"]])
        if r["status"] == "killed":
            l = r["lemma"]
            if l not in cache: cache[l] = users(l)
            d.update(claim="systematic edit; the properties of the theorems that fail", failed=cache[l], first_failing_lemmas=["%s.%s" % (r["where"], l)], tightened=[],
                     note="build stopped at the first failing lemma; `failed` are the theorems whose proofs use it%s" % ("; that proof timed out" if r.get("timeout") else ""))
        else:
            d.update(claim="systematic edit", failed=[], first_failing_lemmas=[], tightened=ADDED.get((r["file"], r["definition"], r["line"]), []), note="SURVIVED: " + SURVIVORS.get((r["file"], r["definition"], r["line"]), "not examined yet"))
        out.append(d)
with open(os.path.join(root, "seeded", "LOG.jsonl"), "w") as f:
    for d in out: f.write(json.dumps(d) + "\n")
print(len(out), "attempts,", sum(1 for d in out if "SURVIVED" in d["note"]), "survivors,", sum(1 for d in out if d["tightened"]), "with tightened theorems,",
      sum(1 for d in out if not d["failed"]), "without failing theorem")
