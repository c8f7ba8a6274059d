#!/usr/bin/env python3
"""Finds the numbers the proofs about BLS12-381's maps exhibit and writes theories/LH2CCert.v; Coq checks each of them."""
import re, random
random.seed(1)
q = 0x1a0111ea397fe69a4b1ba7b6434bacd764774b84f38512bf6730d2a0f6b0f6241eabfffeb153ffffb9feffffffffaaab
A = 0x144698a3b8e9433d693a02c96d4982b0ea985383ee66a8d8e8981aefd881ac98936f8da0e0f97f5cf428082d584c1d
B = 0x12e2908d11688030018b12e8753eee3b2016c1f0f24f4070a0b9c14fcef35ef55a23215a316ceaa5d1cc48e98e172be0
T = open("/verif/rocq/theories/MH2CTables.v").read()
def arr(n):
    t = re.search(n + r" : list .*? :=(.*?)\.\n", T, re.S).group(1)
    return [int(x, 0) for x in re.findall(r"0x[0-9a-f]+|\b0\b", t)]
def trim(a):
    while a and a[-1] == 0: a = a[:-1]
    return a
def pdivmod(a, m):
    a = a[:]; quo = [0] * max(0, len(a) - len(m) + 1); iv = pow(m[-1], -1, q)
    while len(a) >= len(m):
        c = a[-1] * iv % q; quo[len(a) - len(m)] = c
        for i in range(len(m)): a[len(a) - len(m) + i] = (a[len(a) - len(m) + i] - c * m[i]) % q
        a.pop()
    return quo, trim(a)
def pmul(a, b):
    if not a or not b: return []
    r = [0] * (len(a) + len(b) - 1)
    for i, x in enumerate(a):
        for j, y in enumerate(b): r[i + j] = (r[i + j] + x * y) % q
    return r
def gcd(a, b):
    a = trim(a); b = trim(b)
    while b: a, b = b, pdivmod(a, b)[1]
    iv = pow(a[-1], -1, q); return [x * iv % q for x in a]
def ppow(b, e, m):
    r = [1]
    for bit in bin(e)[2:]:
        r = pdivmod(pmul(r, r), m)[1]
        if bit == '1': r = pdivmod(pmul(r, b), m)[1]
    return r
def roots(f):
    if len(f) == 2: return [(-f[0] * pow(f[1], -1, q)) % q]
    if len(f) < 2: return []
    while 1:
        h = ppow([random.randrange(q), 1], (q - 1) // 2, f) or [0]
        h[0] = (h[0] - 1) % q
        d = gcd(f, h)
        if 1 < len(d) < len(f): return roots(d) + roots(pdivmod(f, d)[0])
def root(a):
    a %= q; s = pow(a, (q + 1) // 4, q); assert s * s % q == a; return s
inv = lambda a: pow(a, -1, q)
g = lambda x: (x ** 3 + A * x + B) % q
# G1
xd = arr("g1_k_x_den") + [1]
der = [(i * c) % q for i, c in enumerate(xd)][1:]
d1 = gcd(xd, der); assert pmul(d1, d1) == xd
ks = roots(d1); assert len(ks) == 5
dbl = lambda x: ((3 * x * x + A) ** 2 - 8 * x * g(x)) * inv(4 * g(x)) % q
k = [min(ks)]
for _ in range(4): k.append(dbl(k[-1]))
assert sorted(k) == sorted(ks) and dbl(k[-1]) == k[0]
assert all(pow(g(x), (q - 1) // 2, q) == 1 for x in k)
# u with x1 = k_i
u0 = None
for x0 in k:
    # A x (t^2 + t) = -B (t^2 + t + 1)
    d = -B * inv(A * x0 + B) % q
    disc = (1 + 4 * d) % q
    if pow(disc, (q - 1) // 2, q) != 1: continue
    for s in (root(disc), -root(disc)):
        t = (s - 1) * inv(2) % q; w = t * inv(11) % q
        if pow(w, (q - 1) // 2, q) == 1:
            c = min(root(w), q - root(w))
            if u0 is None: u0 = (c, x0)
assert u0
ex1 = B * inv(11 * A) % q
# cubes: -4 = z^j s^3 with z of order 9
while 1:
    c = random.randrange(2, q); z = pow(c, (q - 1) // 9, q)
    if pow(z, 3, q) != 1: break
m = (q - 1) // 9
for j in (1, 2):
    w = -4 * inv(pow(z, j, q)) % q
    if pow(w, (q - 1) // 3, q) == 1: break
else: assert 0
# cube root of w: w^(m) has order dividing 3
e3 = pow(3, -1, m); s3 = pow(w, e3, q)            # s3^3 = w * (9-th root of unity)
s3 = next(s3 * pow(z, a, q) % q for a in range(9) if pow(s3 * pow(z, a, q) % q, 3, q) == w)
# G2
def cm(a, b): return ((a[0] * b[0] - a[1] * b[1]) % q, (a[0] * b[1] + a[1] * b[0]) % q)
def cinv(a): n = inv(a[0] * a[0] + a[1] * a[1]); return (a[0] * n % q, -a[1] * n % q)
def ca(a, b): return ((a[0] + b[0]) % q, (a[1] + b[1]) % q)
def croot(a):
    n = root(a[0] * a[0] + a[1] * a[1])
    for n in (n, -n):
        d = (a[0] + n) * inv(2) % q
        if pow(d, (q - 1) // 2, q) == 1 or d == 0:
            x = root(d); y = a[1] * inv(2 * x) % q; assert cm((x, y), (x, y)) == (a[0] % q, a[1] % q); return (x, y)
g2 = lambda x: ca(ca(cm(x, cm(x, x)), cm((0, 240), x)), (1012, 1012))
v = arr("g2_k_x_den"); x2 = (-v[2] * inv(2) % q, -v[3] * inv(2) % q)
assert cm(x2, x2) == (v[0], v[1])
gx = g2(x2); n2 = root(-(gx[0] ** 2 + gx[1] ** 2))
ex2 = cm((1012, 1012), cinv(cm((-2, -1), (0, 240))))
h = hex
out = f'''(** * Numbers exhibited in the proofs about the maps to BLS12-381, found by tools/h2c_cert.py *)
From Coq Require Import ZArith List.
Import ListNotations.
Local Open Scope Z_scope.

(** The polynomial whose roots are kernel1 of SpecH2C.v. *)
Definition c_d1 : list Z :=
  [{(";" + chr(10) + "   ").join(h(x) for x in d1)}].
(** An input of the map of G1 whose image on the auxiliary curve is in the kernel, its x coordinate, a root of g there. *)
Definition c_u : Z := {h(u0[0])}.
Definition c_ux : Z := {h(u0[1])}.
Definition c_uy : Z := {h(root(g(u0[1])))}.
(** The x coordinate of the exceptional inputs, and a root of g there. *)
Definition c_ex1 : Z := {h(ex1)}.
Definition c_ey1 : Z := {h(root(g(ex1)))}.
(** Roots of -11 and of -5. *)
Definition c_m11 : Z := {h(root(-11))}.
Definition c_m5 : Z := {h(root(-5))}.
(** A root of unity of order 9 and s with -4 = z^{j} s^3. *)
Definition c_z9 : Z := {h(z)}.
Definition c_s3 : Z := {h(s3)}.
(** The x coordinate of the kernel of the isogeny of G2, and a root of minus the norm of g there. *)
Definition c_x2 : Z * Z := ({h(x2[0])}, {h(x2[1])}).
Definition c_n2 : Z := {h(n2)}.
(** The x coordinate of the exceptional inputs of G2, and a root of g there. *)
Definition c_ex2 : Z * Z := ({h(ex2[0])},
  {h(ex2[1])}).
Definition c_ey2 : Z * Z := ({h(croot(g2(ex2))[0])},
  {h(croot(g2(ex2))[1])}).
'''
open("/verif/rocq/theories/LH2CCert.v", "w").write(out)
