#!/usr/bin/env python3
"""Writes rocq/theories/Model_DbTable.v from /repo/src/pybsm/atms/fileDecoder.csv (read as text).

Altitudes (km, at most 4 decimals) become integers in units of 0.1 m,
ground ranges (km, at most 1 decimal) integers in metres."""
from decimal import Decimal
rows = [l.strip().split(",") for l in open("/repo/src/pybsm/atms/fileDecoder.csv").read().splitlines()[1:]]
out = []
for r in rows:
    a = Decimal(r[1]) * 10000
    g = Decimal(r[2]) * 1000
    assert a == int(a) and g == int(g) and r[4] == ""
    out.append((int(r[0]), int(a), int(g), int(r[3])))
with open("/verif/rocq/theories/Model_DbTable.v", "w") as fh:
    fh.write("""(** * Model_DbTable: src/pybsm/atms/fileDecoder.csv, lines 2-3431, verbatim.
    Generated by tools/gen_decoder.py.  One row per line of the file: (Index,
    Altitude in units of 1e-4 km, Ground Range in units of 1e-3 km, IHAZE).
    The trailing empty column of each line is dropped. *)
From Coq Require Import ZArith List.
Import ListNotations.
Open Scope Z_scope.

Definition row := (Z * Z * Z * Z)%type.

Definition decoder : list row := [
""")
    fh.write(";\n".join("; ".join("(%d,%d,%d,%d)" % t for t in out[i:i+4]) for i in range(0, len(out), 4)))
    fh.write("].\n")
