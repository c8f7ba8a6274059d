#!/usr/bin/env python3
"""Certificates for Pocklington's criterion: writes theories/LPrimes.v."""
import random, math, sys
random.seed(1)
SMALL = [p for p in range(2, 2000) if all(p % q for q in range(2, int(p ** .5) + 1))]
def is_prime(n):
    for p in SMALL:
        if n % p == 0: return n == p
    d, s = n - 1, 0
    while d % 2 == 0: d //= 2; s += 1
    for a in SMALL[:30]:
        x = pow(a, d, n)
        if x in (1, n - 1): continue
        for _ in range(s - 1):
            x = x * x % n
            if x == n - 1: break
        else: return False
    return True
def rho(n, limit=300000):
    if n % 2 == 0: return 2
    c = random.randrange(1, n); y = random.randrange(n); m = 256; g = r = q = 1; it = 0
    while g == 1:
        x = y
        for _ in range(r): y = (y * y + c) % n
        k = 0
        while k < r and g == 1:
            ys = y
            for _ in range(min(m, r - k)):
                y = (y * y + c) % n; q = q * abs(x - y) % n
            g = math.gcd(q, n); k += m
        r *= 2; it += r
        if it > limit: return None
    if g == n:
        while True:
            ys = (ys * ys + c) % n; g = math.gcd(abs(x - ys), n)
            if g > 1: break
    return g if g != n else None
def ecm(n, B1, curves):
    ps = [p for p in range(2, B1) if all(p % q for q in SMALL if q * q <= p)] if B1 < 4000000 else []
    for _ in range(curves):
        s = random.randrange(6, n); u = (s * s - 5) % n; v = 4 * s % n
        x = pow(u, 3, n); z = pow(v, 3, n)
        d = 4 * pow(u, 3, n) * v % n
        g = math.gcd(d, n)
        if g not in (1, n): return g
        a24 = (pow(v - u, 3, n) * (3 * u + v) * pow(d, -1, n) * pow(4, -1, n)) % n
        def dbl(P):
            X, Z = P; a = (X + Z) ** 2 % n; b = (X - Z) ** 2 % n; c = a - b
            return a * b % n, c * (b + a24 * c) % n
        def addp(P, Q, D):
            a = (P[0] - P[1]) * (Q[0] + Q[1]); b = (P[0] + P[1]) * (Q[0] - Q[1])
            return D[1] * (a + b) ** 2 % n, D[0] * (a - b) ** 2 % n
        def mul(k, P):
            R0, R1 = P, dbl(P)
            for bit in bin(k)[3:]:
                if bit == '1': R0, R1 = addp(R0, R1, P), dbl(R1)
                else: R0, R1 = dbl(R0), addp(R0, R1, P)
            return R0
        P = (x, z)
        for p in ps:
            k = p
            while k * p <= B1: k *= p
            P = mul(k, P)
        g = math.gcd(P[1], n)
        if g not in (1, n): return g
    return None
# known factors of p - 1 for the Pasta primes and the base field of BLS12-381
HINTS = [539204044132271846773, 8999194758858563409123804352480028797519453, 1690502597179744445941507,
         2584487767265781317813, 15778400344354997994418419698270088123916926905054652752758194827714659,
         1125266252156850182658904441386709967, 92691255082156974996979, 3819663927398918131021]
def factor(n, effort):
    """partial factorisation: dict of primes, composite rest"""
    out = {}; rest = 1; todo = [n]
    for p in range(2, 100000):
        if p > 2000 and p % 2 == 0: continue
        while todo[0] % p == 0: out[p] = out.get(p, 0) + 1; todo[0] //= p
    for h in HINTS:
        if n % h == 0 and n != h: todo[0] //= h; todo.append(h)
    while todo:
        m = todo.pop()
        if m == 1: continue
        if is_prime(m): out[m] = out.get(m, 0) + 1; continue
        f = None
        for _ in range(3):
            f = rho(m)
            if f: break
        if not f:
            for B1, c in ((2000, 25), (11000, 60), (50000, effort)):
                f = ecm(m, B1, c)
                if f: break
        if f: todo += [f, m // f]
        else: rest *= m
    return out, rest
CERTS = {}
def certify(n, effort=40):
    if n in CERTS or n < 1000: return
    fs, rest = factor(n - 1, effort)
    print(n, fs, rest, file=sys.stderr, flush=True)
    # primes to use: greedily, largest power first
    F = 1; use = []
    for q, e in sorted(fs.items(), key=lambda x: -x[0] ** x[1]):
        if F * F >= n: break
        use.append((q, e)); F *= q ** e
    assert F * F >= n, (n, fs, rest)
    # drop unnecessary ones
    for c in sorted(use, key=lambda x: x[0] ** x[1]):
        if (F // c[0] ** c[1]) ** 2 >= n: F //= c[0] ** c[1]; use.remove(c)
    a = 2
    while not (pow(a, n - 1, n) == 1 and all(math.gcd(pow(a, (n - 1) // q, n) - 1, n) == 1 for q, _ in use)): a += 1
    l = (a, use)
    for q, _ in use: certify(q, effort)
    CERTS[n] = l
NAMED = [("bn254_r", 21888242871839275222246405745257275088548364400416034343698204186575808495617),
         ("bls12_381_r", 0x73eda753299d7d483339d80809a1d80553bda402fffe5bfeffffffff00000001),
         ("pallas_p", 0x40000000000000000000000000000000224698fc094cf91b992d30ed00000001),
         ("vesta_p", 0x40000000000000000000000000000000224698fc0994a8dd8c46eb2100000001)]
NAMED381 = [("bls12_381_q", 0x1a0111ea397fe69a4b1ba7b6434bacd764774b84f38512bf6730d2a0f6b0f6241eabfffeb153ffffb9feffffffffaaab)]
if __name__ == "__main__":
    for _, n in NAMED + NAMED381: certify(n)
    o = ['''(** The orders of the fields are prime.  Certificates found by tools/pocklington.py. *)
From Coq Require Import ZArith Znumtheory Lia List Bool.
From Verif Require Import LFermat SpecPoseidon.
Import ListNotations.
Local Open Scope Z_scope.

(** Small primes: no divisor up to the square root. *)
Fixpoint no_divisor (k : nat) (d n : Z) : bool :=
  match k with
  | O => n <? d * d
  | S k' => (n <? d * d) || (negb (n mod d =? 0) && no_divisor k' (d + 1) n)
  end.
Lemma no_divisor_ok k : forall d n, 2 <= d -> 1 < n -> (forall m, 1 < m < d -> ~ (m | n)) -> no_divisor k d n = true -> prime n.
Proof.
  assert (B : forall d n, 2 <= d -> 1 < n -> (forall m, 1 < m < d -> ~ (m | n)) -> (n <? d * d) = true -> prime n).
  { intros d n Hd Hn H E. apply Z.ltb_lt in E. destruct (prime_dec n) as [P|P]; [exact P|].
    destruct (not_prime_divide n Hn P) as (m & Hm & k' & Ek). exfalso.
    destruct (Z_lt_le_dec m d) as [Hl|Hl]; [apply (H m); [now split|exists k'; assumption]|].
    assert (Hk : 1 < k' < d) by nia. apply (H k' Hk). exists m. rewrite Ek. ring. }
  induction k as [|k IH]; intros d n Hd Hn H E; cbn [no_divisor] in E; [now apply (B d n)|].
  apply Bool.orb_true_iff in E. destruct E as [E|E]; [now apply (B d n)|]. apply andb_prop in E. destruct E as [E1 E2].
  apply (IH (d + 1) n); auto; [apply Z.le_le_succ_r; exact Hd|]. intros m Hm D. destruct (Z.eq_dec m d) as [->|Hne].
  - apply Bool.negb_true_iff, Z.eqb_neq in E1. apply E1, Z.mod_divide; [|exact D]. apply Z.neq_sym, Z.lt_neq, (Z.lt_le_trans 0 2); [reflexivity|exact Hd].
  - apply (H m); [|exact D]. destruct Hm as [Hm1 Hm2]. split; [exact Hm1|]. apply Z.le_neq. split; [|exact Hne]. apply Z.lt_succ_r. exact Hm2.
Qed.
Lemma small_prime n : (1 <? n) && no_divisor 40 2 n = true -> prime n.
Proof.
  intros H. apply andb_prop in H. destruct H as [H1 H2]. apply Z.ltb_lt in H1. apply (no_divisor_ok 40 2); auto; [apply Z.le_refl|].
  intros m [Hm1 Hm2]. exfalso. apply (Z.lt_irrefl m). apply (Z.lt_le_trans _ 2); [exact Hm2|]. apply Z.le_succ_l in Hm1. exact Hm1.
Qed.
''']
    names = {n: s for s, n in NAMED + NAMED381}; done = set()
    def nm(n): return "prime_" + (names[n] if n in names else str(n))
    def emit(n):
        if n in done: return
        done.add(n)
        if n < 1000:
            o.append(f"Lemma {nm(n)} : prime {n}.\nProof. apply small_prime. vm_compute. reflexivity. Qed."); return
        for q, _ in CERTS[n][1]: emit(q)
        l = "; ".join(f"({q}, {e}%nat)" for q, e in CERTS[n][1])
        o.append(f"Lemma {nm(n)} : prime {names.get(n, n)}.\nProof.\n  apply (check_prime _ {CERTS[n][0]} [{l}]); [vm_compute; reflexivity|].\n  repeat apply Forall_cons; try apply Forall_nil; cbn [fst].\n" +
                 "".join(f"  - exact {nm(q)}.\n" for q, _ in CERTS[n][1]) + "Qed.")
    for _, n in NAMED: emit(n)
    open("/verif/rocq/theories/LPrimes.v", "w").write("\n".join(o) + "\n")
    o[:] = ['''(** The order of the base field of BLS12-381 is prime.  Certificates found by tools/pocklington.py. *)
From Coq Require Import ZArith Znumtheory Lia List Bool.
From Verif Require Import LFermat LPrimes SpecH2C.
Import ListNotations.
Local Open Scope Z_scope.
''']
    for _, n in NAMED381: emit(n)
    open("/verif/rocq/theories/LPrimes381.v", "w").write("\n".join(o) + "\n")
