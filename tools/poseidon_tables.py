#!/usr/bin/env python3
"""Copies the constants of Poseidon from /repo into theories/MPoseidonTables.v, literal by literal."""
import re
R = "include/nil/crypto3/hash/detail/poseidon/"
OUT = ['''(** * The tables of constants of Poseidon, copied from /repo by tools/poseidon_tables.py *)
From Coq Require Import NArith List.
Import ListNotations.
Local Open Scope N_scope.
''']
for f, names in (("original_constants.hpp", ["bn254_2", "bn254_4", "bls12_381_2", "bls12_381_4"]),
                 ("kimchi_constants.hpp", ["pallas", "vesta"])):
    lines = open("/repo/" + R + f).read().split("\n")
    starts = [i for i, l in enumerate(lines) if re.search(r"> (mds_matrix|round_constants) =", l)]
    assert len(starts) == 2 * len(names)
    for k, i in enumerate(starts):
        j = i + 1
        while not re.match(r"\s*\}\};", lines[j]): j += 1
        rows, row, ls = [], None, []
        for l in lines[i + 1:j]:
            if "{{" in l and re.search(r"\{\{\s*$", l): row = []
            v = re.search(r"(0x[0-9a-fA-F]+)_cppui25\d", l)
            if v: row.append(v.group(1))
            if re.match(r"\s*\}\}", l): rows.append(row); row = None
        t = len(rows[0]); assert all(len(r) == t for r in rows), (f, k)
        name = f"{names[k // 2]}_{'mds' if k % 2 == 0 else 'rc'}"
        OUT.append(f"(** {R}{f}:{i+1}-{j+1}. *)")
        OUT.append(f"Definition {name} : list (list N) :=\n  [" + ";\n   ".join("[" + ";\n    ".join(r) + "]" for r in rows) + "].\n")
        print(name, len(rows), t)
open("/verif/rocq/theories/MPoseidonTables.v", "w").write("\n".join(OUT))
