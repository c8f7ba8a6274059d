#!/usr/bin/env python3
"""Copies the coefficients of the isogenies from /repo into theories/MH2CTables.v, literal by literal."""
import re
F = "include/nil/crypto3/hash/detail/h2c/h2c_functions.hpp"
lines = open("/repo/" + F).read().split("\n")
OUT = ['''(** * The coefficients of the isogenies of BLS12-381, copied from /repo by tools/h2c_tables.py *)
From Coq Require Import ZArith List.
Import ListNotations.
Local Open Scope Z_scope.
''']
starts = [i for i, l in enumerate(lines) if re.search(r"k_[xy]_(num|den) = \{", l)]
assert len(starts) == 8
for k, i in enumerate(starts):
    j = i
    while not lines[j].rstrip().endswith("};"): j += 1
    name = re.search(r"(k_[xy]_(num|den)) =", lines[i]).group(1)
    n = int(re.search(r", (\d+)> k_", lines[i]).group(1))
    text = "\n".join(lines[i + 1:j + 1])
    vs = re.findall(r"0x[0-9a-f]+|\b0\b", text.replace("_cppui381", ""))
    OUT.append(f"(** {F}:{i+1}-{j+1}. *)")
    if k < 4:
        assert len(vs) == n
        OUT.append(f"Definition g1_{name} : list Z :=\n  [" + ";\n   ".join(vs) + "].\n")
    else:
        assert len(vs) == 2 * n
        OUT.append(f"Definition g2_{name} : list (Z * Z) :=\n  [" + ";\n   ".join(f"({vs[2*t]},\n    {vs[2*t+1]})" for t in range(n)) + "].\n")
open("/verif/rocq/theories/MH2CTables.v", "w").write("\n".join(OUT))
