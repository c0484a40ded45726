#!/usr/bin/env python3
"""Writes rocq/theories/ValidationData.v from the CSV files of the repository's test
test_jib_and_main_sail_vlm_runner.py (numbers recorded from the Python program)."""
import csv, os
here = os.path.dirname(os.path.abspath(__file__))
D = "/repo/pySailingVLM/tests/input_files/"
out = open(os.path.join(here, "..", "rocq", "theories", "ValidationData.v"), "w")
def w(s): out.write(s + "\n")
def fl(x):
    x = x.strip()
    return "(%s)" % x if x.startswith("-") else x
w("(** Generated by tools/gen_validation.py from pySailingVLM/tests/input_files/expected_*_vlm.csv:")
w("    numbers recorded from the Python program by the repository's own tests. *)")
w("From Coq Require Import List String Floats.")
w("Import ListNotations.")
w("Open Scope float_scope.")
w('Set Warnings "-inexact-float".')
w("")
g = [r[0] for r in csv.reader(open(D + "expected_gamma_magnitute_vlm.csv"))][1:]
w("Definition expected_gamma : list float :=\n  [" + ";\n   ".join(fl(x) for x in g) + "].\n")
rows = list(csv.reader(open(D + "expected_integrals_vlm.csv")))[1:]
w("Definition expected_integrals : list (string * float) :=\n  [" +
  ";\n   ".join('("%s"%%string, %s)' % (r[1], fl(r[2])) for r in rows) + "].\n")
rows = list(csv.reader(open(D + "expected_inlet_IC_vlm.csv")))[1:]
w("Definition expected_inlet : list (string * float) :=\n  [" +
  ";\n   ".join('("%s"%%string, %s)' % (r[1], fl(r[2])) for r in rows) + "].\n")
rows = list(csv.reader(open(D + "expected_components_vlm.csv")))
hdr, rows = rows[0], rows[1:]
cols = []
for i, h in enumerate(hdr):
    if i == 0 or h == "sail_name": continue
    cols.append('("%s"%%string, [%s])' % (h, "; ".join(fl(r[i]) for r in rows)))
w("Definition expected_components : list (string * list float) :=\n  [" + ";\n   ".join(cols) + "].\n")
i = hdr.index("sail_name")
w("Definition expected_names : list string :=\n  [%s]%%string." % "; ".join('"%s"' % r[i] for r in rows))
