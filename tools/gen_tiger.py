#!/usr/bin/env python3
"""Write rocq/theories/MTiger.v: the tables are copied from basic_tiger_policy.hpp."""
import re
src = open('/repo/include/nil/crypto3/hash/detail/tiger/basic_tiger_policy.hpp').read()
lines = {1: '53-117', 2: '119-183', 3: '185-249', 4: '251-315'}
out = ['''(** * Model of Tiger (written by tools/gen_tiger.py, which copies the S-boxes) *)
From Coq Require Import NArith Arith List Bool.
From Verif Require Import SpecStream MPack MAcc MConstr.
Import ListNotations.
Local Open Scope N_scope.
''']
for i in range(1, 5):
    m = re.search(r"substitution_type sbox%d = \{(.*?)\}" % i, src, re.S)
    a = src[:m.start()].count('\n') + 1
    b = src[:m.end()].count('\n') + 1
    xs = re.findall(r"0x[0-9A-Fa-f]+", m.group(1))
    assert len(xs) == 256
    out.append("(** detail/tiger/basic_tiger_policy.hpp:%d-%d: sbox%d. *)\nDefinition sbox%d : list N :=\n  [%s].\n" % (
        a, b, i, i, ";\n   ".join("; ".join(xs[k:k + 4]) for k in range(0, 256, 4))))
out.append('''(** Unsigned 64-bit arithmetic of word_type. *)
Definition plus64 (x y : N) : N := (x + y) mod 2 ^ 64.
Definition minus64 (x y : N) : N := (x + (2 ^ 64 - y mod 2 ^ 64)) mod 2 ^ 64.
Definition times64 (x y : N) : N := (x * y) mod 2 ^ 64.
Definition compl64 (x : N) : N := N.lxor x 0xFFFFFFFFFFFFFFFF.
Definition shl64 (x k : N) : N := N.shiftl x k mod 2 ^ 64.

(** extract_uint_t<CHAR_BIT>(x, position) (sibling repository nil/crypto3/detail/make_uint_t.hpp):
    the octet at [position], counted from the most significant one. *)
Definition extract (x position : N) : N := N.land (N.shiftr x (8 * (7 - position))) 255.
Definition lookup (sbox : list N) (x position : N) : N := nth (N.to_nat (extract x position)) sbox 0.

(** detail/tiger/tiger_functions.hpp:53-71: mix.  X is an array of eight words. *)
Definition mix (X : list N) : list N :=
  match X with
  | [X0; X1; X2; X3; X4; X5; X6; X7] =>
    let X0 := minus64 X0 (N.lxor X7 0xA5A5A5A5A5A5A5A5) in
    let X1 := N.lxor X1 X0 in
    let X2 := plus64 X2 X1 in
    let X3 := minus64 X3 (N.lxor X2 (shl64 (compl64 X1) 19)) in
    let X4 := N.lxor X4 X3 in
    let X5 := plus64 X5 X4 in
    let X6 := minus64 X6 (N.lxor X5 (N.shiftr (compl64 X4) 23)) in
    let X7 := N.lxor X7 X6 in
    let X0 := plus64 X0 X7 in
    let X1 := minus64 X1 (N.lxor X0 (shl64 (compl64 X7) 19)) in
    let X2 := N.lxor X2 X1 in
    let X3 := plus64 X3 X2 in
    let X4 := minus64 X4 (N.lxor X3 (N.shiftr (compl64 X2) 23)) in
    let X5 := N.lxor X5 X4 in
    let X6 := plus64 X6 X5 in
    let X7 := minus64 X7 (N.lxor X6 0x0123456789ABCDEF) in
    [X0; X1; X2; X3; X4; X5; X6; X7]
  | _ => X
  end.

(** The two S-box expressions of detail/tiger/tiger_functions.hpp:75-78 and 79-82, which recur
    unchanged with C, A, B in turn at 85-92, 95-102, 105-112, 115-122, 125-132, 135-142, 145-152. *)
Definition odd_octets (x : N) : N :=
  N.lxor (N.lxor (N.lxor (lookup sbox1 x 7) (lookup sbox2 x 5)) (lookup sbox3 x 3)) (lookup sbox4 x 1).
Definition even_octets (x : N) : N :=
  N.lxor (N.lxor (N.lxor (lookup sbox1 x 0) (lookup sbox2 x 2)) (lookup sbox3 x 4)) (lookup sbox4 x 6).

(** detail/tiger/tiger_functions.hpp:73-154: pass(A, B, C, X, mul). *)
Definition pass (v : N * N * N) (X : list N) (mul : N) : N * N * N :=
  let '(A, B, C) := v in
  match X with
  | [X0; X1; X2; X3; X4; X5; X6; X7] =>
''')
ln = 74
names = ["C", "A", "B"]
prev = {"C": ("A", "B"), "A": ("B", "C"), "B": ("C", "A")}
for i in range(8):
    r = names[i % 3]
    p, q = prev[r]
    out[-1] += '''    let %s := N.lxor %s X%d in
    let %s := minus64 %s (odd_octets %s) in
    let %s := plus64 %s (even_octets %s) in
    let %s := times64 %s mul in
''' % (r, r, i, p, p, r, q, q, r, q, q)
out[-1] += '''    (A, B, C)
  | _ => v
  end.
'''
out.append('''(** tiger.hpp:64-71: one further pass. *)
Definition more_pass (s : (N * N * N) * list N) : (N * N * N) * list N :=
  let '(v, input) := s in
  let input := mix input in
  let '(A, B, C) := pass v input 9 in
  let T := A in
  let A := C in
  let C := B in
  let B := T in
  ((A, B, C), input).

(** tiger.hpp:56-71: the part of process_block before the feed-forward; [passes] >= 3 (with fewer, the
    loop counter of line 64 wraps around). *)
Definition keyed (passes : nat) (block : list N) (v : N * N * N) : N * N * N :=
  let '(A, B, C) := v in
  let input := block in
  let '(A, B, C) := pass (A, B, C) input 5 in
  let input := mix input in
  let '(C, A, B) := pass (C, A, B) input 7 in
  let input := mix input in
  let '(B, C, A) := pass (B, C, A) input 9 in
  fst (Nat.iter (passes - 3) more_pass ((A, B, C), input)).

(** tiger.hpp:54-76: tiger_compressor<DigestBits, passes>::process_block; states longer than three
    words (DigestBits >= 256) keep the rest; on shorter ones state[2] is out of bounds, see [tiger_iv]. *)
Definition tiger_process_block (passes : nat) (state block : list N) : list N :=
  match state with
  | st0 :: st1 :: st2 :: rest =>
    let '(A, B, C) := keyed passes block (st0, st1, st2) in
    N.lxor st0 A :: minus64 B st1 :: plus64 st2 C :: rest
  | _ => state
  end.

(** detail/tiger/tiger_policy.hpp:62-68 and 97-103 with basic_tiger_policy.hpp:46-48: iv_generator for a
    state of DigestBits / 64 words; three initialisers for an array of fewer words are ill-formed. *)
Definition tiger_iv (digest_bits : nat) : option (list N) :=
  let state_words := (digest_bits / 64)%nat in
  if (state_words <? 3)%nat then None
  else Some ([0x0123456789ABCDEF; 0xFEDCBA9876543210; 0xF096A5B4C3B2E187] ++ repeat 0 (state_words - 3)).

(** tiger.hpp:79-131: tiger<DigestBits, Passes>: 64-bit words, 512-bit blocks, 64-bit length field,
    little_octet_big_bit digest order, the padding of detail/tiger/tiger_padding.hpp. *)
Definition tiger (digest_bits passes : nat) (inj : injector) : option construction :=
  option_map (fun iv => md_construction LOBB 64 8 64 (digest_bits / 64) iv (tiger_process_block passes)
                          (tiger_padding inj LOBB 64 8)) (tiger_iv digest_bits).
''')
open('/verif/rocq/theories/MTiger.v', 'w').write("\n".join(out))
