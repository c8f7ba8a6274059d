#!/usr/bin/env python3
"""Write rocq/theories/SpecTigerTables.v: Tiger's S-boxes, produced by the authors' generation procedure
(not copied from /repo).  Each octet column starts as the identity; in five sweeps over rows and tables every
octet of a row is exchanged with the one selected by the successive octets of the state of the three-pass
compression function, fed the title of the paper under the tables as they stand."""
M = (1 << 64) - 1
TITLE = b"Tiger - A Fast New Hash Function, by Ross Anderson and Eli Biham"
X = [int.from_bytes(TITLE[8 * i:8 * i + 8], "little") for i in range(8)]

def key_schedule(x):
    x = list(x)
    x[0] = (x[0] - (x[7] ^ 0xA5A5A5A5A5A5A5A5)) & M
    x[1] ^= x[0]
    x[2] = (x[2] + x[1]) & M
    x[3] = (x[3] - (x[2] ^ ((~x[1] & M) << 19 & M))) & M
    x[4] ^= x[3]
    x[5] = (x[5] + x[4]) & M
    x[6] = (x[6] - (x[5] ^ ((~x[4] & M) >> 23))) & M
    x[7] ^= x[6]
    x[0] = (x[0] + x[7]) & M
    x[1] = (x[1] - (x[0] ^ ((~x[7] & M) << 19 & M))) & M
    x[2] ^= x[1]
    x[3] = (x[3] + x[2]) & M
    x[4] = (x[4] - (x[3] ^ ((~x[2] & M) >> 23))) & M
    x[5] ^= x[4]
    x[6] = (x[6] + x[5]) & M
    x[7] = (x[7] - (x[6] ^ 0x0123456789ABCDEF)) & M
    return x

def compress(T, h, x):
    a, b, c = h
    for mul in (5, 7, 9):
        for xi in x:
            c ^= xi
            o = c.to_bytes(8, "little")
            a = (a - (T[0][o[0]] ^ T[1][o[2]] ^ T[2][o[4]] ^ T[3][o[6]])) & M
            b = (b + (T[3][o[1]] ^ T[2][o[3]] ^ T[1][o[5]] ^ T[0][o[7]])) & M
            b = b * mul & M
            a, b, c = b, c, a
        x = key_schedule(x)
    # 24 rounds: the registers are back in place
    return [a ^ h[0], (b - h[1]) & M, (c + h[2]) & M]

def gen():
    T = [[i * 0x0101010101010101 for i in range(256)] for _ in range(4)]
    h = [0x0123456789ABCDEF, 0xFEDCBA9876543210, 0xF096A5B4C3B2E187]
    abc = 2
    for _ in range(5):
        for i in range(256):
            for sb in range(4):
                abc += 1
                if abc == 3:
                    abc = 0
                    h = compress(T, h, X)
                for col in range(8):
                    k = h[abc] >> (8 * col) & 255
                    m = 255 << (8 * col)
                    u, v = T[sb][i], T[sb][k]
                    if i != k:
                        T[sb][i] = u & ~m | v & m
                        T[sb][k] = v & ~m | u & m
    return T

if __name__ == "__main__":
    T = gen()
    s = '''(** * Specification: Tiger's S-boxes

    Written by tools/tiger_sboxes.py, which runs the authors' generation procedure (not copied from the
    repository). *)
From Coq Require Import NArith List.
Import ListNotations.
Local Open Scope N_scope.

'''
    for k in range(4):
        rows = ["; ".join("0x%016X" % x for x in T[k][i:i + 4]) for i in range(0, 256, 4)]
        s += "Definition t%d : list N :=\n  [%s].\n\n" % (k + 1, ";\n   ".join(rows))
    s += "Definition tables : list (list N) := [t1; t2; t3; t4].\n"
    open("/verif/rocq/theories/SpecTigerTables.v", "w").write(s)
