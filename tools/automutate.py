#!/usr/bin/env python3
"""Systematic seeded errors: one small edit at a time in a model file, then everything that depends on
it is recompiled in a scratch copy outside the repository until the first proof fails.

Usage: automutate.py MODEL [WORKERS] [--list] [--only DEF[,DEF...]] [--skip FILE] [--every K]
MODEL is a file name without .v; edits already in FILE are left out; --every takes each K-th edit.
Prints one JSON line per edit: file, definition, line, edit, status
  invalid  - the edited model does not type check
  killed   - `where`/`lemma` is the first proof that fails
  survived - every file that depends on the model still compiles
Needs a complete build in rocq/.
"""
import json, os, re, shutil, subprocess, sys
from concurrent.futures import ThreadPoolExecutor
sys.path.insert(0, os.path.dirname(os.path.abspath(__file__)))
from mutate import TH, START, files, deps, closure
SCRATCH = "/tmp/amut"
SWAPS = [("xadd", "xsub"), ("xmul", "xdiv"), ("xmax", "xmin"), ("Rltb", "Rleb"), ("xlt", "xle"), ("xcos", "xsin"),
         ("cos", "sin"), ("xsq", "xsqrt"), ("ValueError", "IndexError"), ("CvError", "ValueError"), ("OverflowError", "ValueError"),
         ("NonFinite", "ValueError"), ("UnboundLocalError", "ValueError"), ("TypeError", "ValueError"),
         ("ZeroDivisionError", "ValueError"), ("true", "false"), ("Rmax", "Rmin"), ("Z.max", "Z.min"), ("Nat.max", "Nat.min"),
         ("rows", "cols"), ("u", "v"), ("s_wx", "s_wy"), ("s_px", "s_py"), ("s_sx", "s_sy"), ("s_dax", "s_day"), ("s_Lx", "s_Ly"),
         ("w_x", "w_y"), ("p_x", "p_y"), ("s_x", "s_y"), ("L_x", "L_y"), ("a_x", "a_y"), ("ifov_x", "ifov_y"), ("gsd_x", "gsd_y"),
         ("tgt_rate", "bkg_rate"), ("tgt_n", "bkg_n"), ("tgt_irr", "bkg_irr"), ("tgt_noise", "bkg_noise"), ("s_T_opt", "s_T_filt"),
         ("s_e_opt", "s_e_filt"), ("fst", "snd"), ("Py", "Np"), ("Zfloor", "Zceil"), ("xexp", "xsin"), ("firstn", "skipn"),
         ("s_D", "s_f"), ("altitude", "ground_range"), ("low_alt", "high_alt"), ("low_range", "high_range"), ("andb", "orb"),
         ("a_path", "a_scat"), ("a_trans", "a_grnd"), ("D", "f"), ("h_target", "h_sensor"), ("u_rer", "v_rer"), ("u_slice", "v_slice"),
         ("u_eho", "v_eho"), ("lo", "hi"), ("m_tgt_irr", "m_bkg_irr"), ("eta", "0"), ("rev", "id"), ("s_int_time", "s_ntdi"),
         ("int_time", "1"), ("filt_trans", "emissivity"), ("opt_trans", "qe"), ("s_owl", "s_qwl"), ("s_otr", "s_qe")]
OPS = {"+": ["-"], "-": ["+"], "*": ["+"], "/": ["*"]}
TOK = re.compile(r"\(\*.*?\*\)|\d+\.\d+|\d+|[A-Za-z_][\w']*(?:\.[A-Za-z_][\w']*)*|:=|=>|->|<-|<=|>=|<>|&&|\|\||/\\|\\/|[^\sA-Za-z_0-9]", re.S)
DEF = re.compile(r"^(?:Definition|Fixpoint)\s+([\w']+)", re.M)

def edits(text):
    spans = []
    ds = list(DEF.finditer(text))
    for k, d in enumerate(ds):
        end = ds[k + 1].start() if k + 1 < len(ds) else len(text)
        m = re.compile(r"\.\s*(?:\n|$)").finditer(text, d.start(), end)
        # a definition ends at the last ". newline" outside comments before the next one
        ends = [x.start() for x in m]
        spans.append((d.group(1), d.start(), ends))
    alt = {}
    for a, b in SWAPS:
        alt.setdefault(a, []).append(b)
        if re.match(r"[A-Za-z_]", b) and b != "id": alt.setdefault(b, []).append(a)
    out = []
    for name, st, ends in spans:
        prev = None
        bodystart = None
        pos = st
        toks = []
        depth = 0
        for t in TOK.finditer(text, st):
            s = t.group(0)
            if s.startswith("(*"): continue
            if s == "." and re.match(r"\s|$", text[t.end():t.end() + 1] or " "):
                break
            toks.append(t)
        k = next((i for i, t in enumerate(toks) if t.group(0) == ":="), None)
        if k is None: continue
        body = toks[k + 1:]
        for i, t in enumerate(body):
            s = t.group(0)
            nxt = body[i + 1].group(0) if i + 1 < len(body) else ""
            prv = body[i - 1].group(0) if i else ":="
            reps = []
            if re.match(r"\d+\.\d+$", s):
                reps = [s + "1"]
            elif re.match(r"\d+$", s):
                reps = [str(int(s) + 1)] if prv != "%" else []
            elif s in OPS and prv not in ("let", "(", ",", ":=", "=>", "then", "else", "in", "[", ";") and prv not in OPS:
                reps = OPS[s]
            elif s in alt and nxt not in (":=", ":", "=>") and prv not in ("let", "fun", "fix"):
                reps = alt[s]
            for r in reps:
                out.append(dict(definition=name, line=text.count("\n", 0, t.start()) + 1, pos=t.start(), old=s, new=r))
    return out

def run(model, e, text, fs, d):
    dir = os.path.join(SCRATCH, "%s_%d_%s" % (model, e["pos"], re.sub(r"\W", lambda m: "%02x" % ord(m.group(0)), e["new"])))
    shutil.rmtree(dir, ignore_errors=True); os.makedirs(dir)
    try:
        for f in fs:
            os.symlink(os.path.join(TH, f + ".vo"), os.path.join(dir, f + ".vo"))
        for f in fs:
            if f != model and model not in closure(d, f): continue
            p = os.path.join(dir, f + ".v")
            if f == model:
                open(p, "w").write(text[:e["pos"]] + e["new"] + text[e["pos"] + len(e["old"]):])
            else:
                src = open(os.path.join(TH, f + ".v")).read()
                open(p, "w").write(re.sub(r"^Print Assumptions .*$", "", src, flags=re.M))
            os.unlink(os.path.join(dir, f + ".vo"))
            r = subprocess.run(["timeout", "400", "coqc", "-Q", ".", "Verif", f + ".v"], cwd=dir, capture_output=True)
            if r.returncode != 0:
                if f == model: return dict(e, status="invalid")
                err = r.stderr.decode("utf8", "replace")
                m = re.search(r'line (\d+), characters', err)
                lemma = ""
                if m:
                    src = open(p).read().split("\n")
                    for l in src[:int(m.group(1))]:
                        s = START.match(l)
                        if s: lemma = s.group(1)
                return dict(e, status="killed", where=f, lemma=lemma, timeout=(r.returncode == 124))
        return dict(e, status="survived")
    finally:
        shutil.rmtree(dir, ignore_errors=True)

if __name__ == "__main__":
    args = [a for a in sys.argv[1:]]
    only = None
    if "--only" in args:
        k = args.index("--only"); only = set(args[k + 1].split(",")); del args[k:k + 2]
    skip, every = set(), 1
    if "--skip" in args:
        k = args.index("--skip")
        if os.path.exists(args[k + 1]):
            for l in open(args[k + 1]):
                e = json.loads(l); skip.add((e["definition"], e["pos"], e["new"]))
        del args[k:k + 2]
    if "--every" in args:
        k = args.index("--every"); every = int(args[k + 1]); del args[k:k + 2]
    lst = "--list" in args
    args = [a for a in args if a != "--list"]
    model = args[0]
    text = open(os.path.join(TH, model + ".v")).read()
    es = [e for e in edits(text) if only is None or e["definition"] in only][::every]
    es = [e for e in es if (e["definition"], e["pos"], e["new"]) not in skip]
    if lst:
        for e in es: print(json.dumps(e))
        sys.exit()
    fs = files(); d = deps(fs)
    os.makedirs(SCRATCH, exist_ok=True)
    with ThreadPoolExecutor(int(args[1]) if len(args) > 1 else 4) as ex:
        for r in ex.map(lambda e: run(model, e, text, fs, d), es):
            print(json.dumps(dict(file=model, **r)), flush=True)
