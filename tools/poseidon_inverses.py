#!/usr/bin/env python3
"""Inverses of the matrices of MPoseidonTables.v, for LPoseidonInverse.v."""
import re
T = open("/verif/rocq/theories/MPoseidonTables.v").read()
BN = 21888242871839275222246405745257275088548364400416034343698204186575808495617
BLS = 0x73eda753299d7d483339d80809a1d80553bda402fffe5bfeffffffff00000001
PALLAS = 0x40000000000000000000000000000000224698fc094cf91b992d30ed00000001
VESTA = 0x40000000000000000000000000000000224698fc0994a8dd8c46eb2100000001
def inverse(m, p):
    n = len(m); a = [r[:] + [int(i == j) for j in range(n)] for i, r in enumerate(m)]
    for c in range(n):
        k = next(r for r in range(c, n) if a[r][c] % p); a[c], a[k] = a[k], a[c]
        v = pow(a[c][c], -1, p); a[c] = [x * v % p for x in a[c]]
        for r in range(n):
            if r != c: f = a[r][c]; a[r] = [(x - f * y) % p for x, y in zip(a[r], a[c])]
    return [r[n:] for r in a]
o = ["(** Inverses of the matrices of MPoseidonTables.v, computed by tools/poseidon_inverses.py and checked in LPoseidonInst.v. *)",
     "From Coq Require Import NArith List.", "Import ListNotations.", "Local Open Scope N_scope.", ""]
for name, p in (("bn254_2", BN), ("bn254_4", BN), ("bls12_381_2", BLS), ("bls12_381_4", BLS), ("pallas", PALLAS), ("vesta", VESTA)):
    body = re.search(r"Definition %s_mds[^=]*:=(.*?)\]\]\." % name, T, re.S).group(1)
    v = [int(x, 16) for x in re.findall(r"0x([0-9a-fA-F]+)", body)]; n = int(len(v) ** .5)
    inv = inverse([v[i * n:i * n + n] for i in range(n)], p)
    o.append(f"Definition {name}_inverse : list (list N) :=\n  [" + ";\n   ".join("[" + ";\n    ".join(hex(x) for x in r) + "]" for r in inv) + "].")
open("/verif/rocq/theories/LPoseidonInverse.v", "w").write("\n".join(o) + "\n")
