#!/usr/bin/env python3
"""Translate the inline assembly of the Keccak permutations into Coq instruction lists.

Reads the header files under /repo as text and writes MKeccakX86.v, MKeccakArm.v, MKeccakAvx2.v
and MKeccakAvx512.v under rocq/theories.  Every string literal line becomes one instruction with
its source line in a comment; a line this script does not know stops it."""
import re, sys
D = '/repo/include/nil/crypto3/hash/detail/keccak/'
OUT = '/verif/rocq/theories/'
def lines(f): return open(D + f).read().split('\n')

def lit(s):
    """the instruction text of a source line holding one string literal, or None"""
    m = re.match(r'\s*"(.*)"\s*\\?\s*$', s.strip())
    if not m: return None
    t = m.group(1).replace('\\n', '').replace('\\t', ' ').replace('\t', ' ').replace('%%', '%').strip()
    return t.rstrip(';').strip()

def z(s):
    s = s.strip()
    if s == '': return '0'
    if '*' in s:
        a, b = s.split('*'); return str(int(a) * int(b))
    return str(int(s))

def consts(ls):
    t = '\n'.join(ls)
    t = t[t.index('round_constants = {'):]
    t = t[:t.index('}')]
    return re.findall(r'UINT64_C\((0x[0-9a-f]+)\)', t)

HEAD = """(** * %s

    Generated by tools/asm_keccak.py from %s; each instruction carries the line it is on. *)
From Coq Require Import NArith ZArith List.
From Verif Require Import MAsm.
Import ListNotations.
Local Open Scope N_scope.

"""
def emit_list(name, doc, items):
    out = '(** %s *)\nDefinition %s : list instr :=\n  [\n' % (doc, name)
    for k, (ln, code) in enumerate(items):
        out += '    %s%s (* %d *)\n' % (code, ';' if k + 1 < len(items) else '', ln)
    return out + '  ].\n\n'
def emit_consts(name, doc, cs):
    return '(** %s *)\nDefinition %s : list N :=\n  [%s].\n\n' % (doc, name, ';\n   '.join(cs))
def span(ls, first, last=None):
    a = next(i for i, l in enumerate(ls) if first in l)
    return a

# ---------------------------------------------------------------- x86-64
def x86():
    f = 'keccak_x86_64_impl.hpp'; ls = lines(f)
    regs = {'r%d' % i: i for i in range(8, 16)}
    ops = {'A': 16, 'C': 17, 'B': 18, 'c': 19}
    def reg(s):
        s = s.strip()
        m = re.fullmatch(r'%\[(\w)\]', s)
        if m: return str(ops[m.group(1)])
        assert s[0] == '%', s
        return str(regs[s[1:]])
    def ins(t):
        m = re.fullmatch(r'(\w+)\s+(.*)', t)
        op, a = m.group(1), m.group(2).strip()
        mem = r'(-?\d*)\((%\[\w\])\)'
        if op == 'mov':
            m = re.fullmatch(r'\$(\d+),\s*(%\w+)', a)
            if m: return 'x_mov_i %s %s' % (m.group(1), reg(m.group(2)))
            m = re.fullmatch(mem + r',\s*(%\w+)', a)
            if m: return 'x_mov_l %s %s %s' % (z(m.group(1)), reg(m.group(2)), reg(m.group(3)))
            m = re.fullmatch(r'(%\w+),\s*' + mem, a)
            if m: return 'x_mov_s %s %s %s' % (reg(m.group(1)), z(m.group(2)), reg(m.group(3)))
            m = re.fullmatch(r'(%\w+),\s*(%\w+)', a)
            if m: return 'x_mov %s %s' % (reg(m.group(1)), reg(m.group(2)))
        if op in ('xor', 'and'):
            m = re.fullmatch(mem + r',\s*(%\w+)', a)
            if m: return 'x_%s_l %s %s %s' % (op, z(m.group(1)), reg(m.group(2)), reg(m.group(3)))
            m = re.fullmatch(r'(%\w+),\s*(%\w+)', a)
            if m and op == 'xor': return 'x_xor %s %s' % (reg(m.group(1)), reg(m.group(2)))
        if op in ('not', 'dec'): return 'x_%s %s' % (op, reg(a))
        if op == 'rol':
            m = re.fullmatch(r'\$(\d+),\s*(%\w+)', a); return 'x_rol %s %s' % (m.group(1), reg(m.group(2)))
        if op == 'lea':
            m = re.fullmatch(mem + r',\s*(%\[\w\])', a)
            return 'x_lea %s %s %s' % (z(m.group(1)), reg(m.group(2)), reg(m.group(3)))
        raise SystemExit('x86: ' + t)
    a = span(ls, '__asm__(') + 1
    pre, body, cur = [], [], None
    cur = pre
    for i in range(a, len(ls)):
        t = lit(ls[i])
        if t is None:
            if ls[i].strip().startswith(':'): break
            assert ls[i].strip() == '' or ls[i].strip().startswith('//'), ls[i]
            continue
        if t == '1:': cur = body; continue
        if t == 'jnz 1b': last = i + 1; break
        cur.append((i + 1, ins(t)))
    o = HEAD % ('The x86-64 assembly of Keccak-f[1600]', 'detail/keccak/' + f)
    o += """(** Registers: 8-15 are r8-r15; 16, 17, 18 and 19 are the registers the compiler chooses for the
    operands [A], [C], [B] and [c] of lines 400-405.  They are distinct from r8-r13 and r15, which
    are in the clobber list, and from each other; the pointers are objects 0 (A), 1 (C), 2 (B) and
    3 (round_constants). *)
"""
    o += emit_consts('x86_round_constants', 'detail/keccak/%s:48-56' % f, consts(ls))
    o += emit_list('x86_prologue', 'detail/keccak/%s: before the label 1' % f, pre)
    o += emit_list('x86_body', 'detail/keccak/%s: from the label 1 to the [dec] before "jnz 1b" (line %d)' % (f, last), body)
    o += """(** permute(A), detail/keccak/%s:57-407: C and B are local arrays without initialiser, so their
    contents [c0] and [b0], like the contents [rs] of the registers, are whatever was there. *)
Definition x86_start (rs : list cval) (c0 b0 : list cval) (st : list N) : c_machine :=
  c_state (firstn 16 rs ++ [CP 0 0; CP 1 0; CP 2 0; CP 3 0]) []
    [map CW st; c0; b0; map CW x86_round_constants].

Definition x86_exec (fuel : nat) (rs c0 b0 : list cval) (st : list N) : option c_machine :=
  match c_run x86_prologue (x86_start rs c0 b0 st) with
  | Some m => c_loop fuel 13 x86_body m
  | None => None
  end.

(** The assembly once more, from the registers and memory [m] that a run left: two inlined calls whose
    operands the compiler keeps in the same registers. *)
Definition x86_again (fuel : nat) (m : c_machine) : option c_machine :=
  match c_run x86_prologue m with
  | Some m' => c_loop fuel 13 x86_body m'
  | None => None
  end.

(** The state array afterwards. *)
Definition x86_permute (fuel : nat) (rs c0 b0 : list cval) (st : list N) : option (list N) :=
  match x86_exec fuel rs c0 b0 st with
  | Some m => match objects concrete m with a :: _ => words_of a | [] => None end
  | None => None
  end.
""" % f
    open(OUT + 'MKeccakX86.v', 'w').write(o)

# ---------------------------------------------------------------- ARMv8
def arm():
    f = 'keccak_armv8_impl.hpp'; ls = lines(f)
    def reg(s):
        s = s.strip()
        if s == '%[A]': return '32'
        if s == 'sp': return '31'
        m = re.fullmatch(r'x(\d+)', s); assert m, s
        return m.group(1)
    def ins(t):
        t = t.strip()
        op, a = re.fullmatch(r'(\w+)\s+(.*)', t).groups()
        m = re.fullmatch(r'(.*?),\s*\[(.*)\]', a)
        if op in ('ldr', 'str', 'ldp', 'stp'):
            rs = [reg(x) for x in m.group(1).split(',')]
            b = m.group(2).split(',')
            off = b[1].strip()[1:] if len(b) > 1 else '0'
            if op in ('ldr', 'str'): return 'a_%s %s %s %s' % (op, rs[0], reg(b[0]), z(off))
            assert off == '0'
            return 'a_%s %s %s %s' % (op, rs[0], rs[1], reg(b[0]))
        p = [x.strip() for x in a.split(',')]
        if op == 'eor' and len(p) == 3: return 'a_eor %s %s %s' % tuple(map(reg, p))
        if op == 'eor' and len(p) == 4:
            m = re.fullmatch(r'ror#(\d+)', p[3]); return 'a_eor_ror %s %s %s %s' % (reg(p[0]), reg(p[1]), reg(p[2]), m.group(1))
        if op == 'bic': return 'a_bic %s %s %s' % tuple(map(reg, p))
        if op == 'ror': return 'a_ror %s %s %s' % (reg(p[0]), reg(p[1]), p[2][1:])
        if op == 'mov': return 'a_mov %s %s' % tuple(map(reg, p))
        if op == 'sub': return 'a_add %s %s (-%s)' % (reg(p[0]), reg(p[1]), p[2][1:])
        if op == 'add': return 'a_add %s %s %s' % (reg(p[0]), reg(p[1]), p[2][1:])
        raise SystemExit('arm: ' + t)
    a = next(i for i, l in enumerate(ls) if '#define MOVQ' in l)
    mq = [lit(ls[a + k].replace('\\n"', '"')) for k in range(1, 5)]
    exp = ['movz    " #Xn ",  " #imm  " & 0xFFFF', 'movk    " #Xn ", (" #imm  " >> 16) & 0xFFFF, lsl 16',
           'movk    " #Xn ", (" #imm  " >> 32) & 0xFFFF, lsl 32', 'movk    " #Xn ", (" #imm " >> 48) & 0xFFFF, lsl 48']
    assert mq == exp, mq
    mql = a + 1
    a = next(i for i, l in enumerate(ls) if '#define keccak_1600_armv8_step(c)' in l)
    bef, aft, cur = [], [], None
    cur = bef
    i = a + 1
    while True:
        l = ls[i].rstrip()
        cont = l.endswith('\\')
        l = l.rstrip('\\').strip()
        if l == 'MOVQ(x25, c)': mline = i + 1; cur = aft
        elif l:
            t = lit(l); cur.append((i + 1, ins(t)))
        i += 1
        if not cont: break
    a = next(i for i, l in enumerate(ls) if '__asm__ volatile(' in l)
    pre, cs, post = [], [], []
    for i in range(a + 1, len(ls)):
        l = ls[i].strip()
        if l.startswith(':'): break
        if l == '' or l.startswith('//'): continue
        m = re.fullmatch(r'keccak_1600_armv8_step\((0x[0-9a-f]+)\)', l)
        if m: cs.append(m.group(1)); cl = i + 1; continue
        (post if cs else pre).append((i + 1, ins(lit(l))))
    o = HEAD % ('The ARMv8 assembly of Keccak-f[1600]', 'detail/keccak/' + f)
    o += """(** Registers: 0-30 are x0-x30, 31 is sp, 32 is the register the compiler chooses for the operand
    [A] (x1, x18 or x29, the ones not in the clobber list of lines 312-315).  Objects: 0 is the state
    array, 1 the stack. *)

(** MOVQ, detail/keccak/%s:%d-%d. *)
Definition arm_movq (d : nat) (imm : N) : list instr :=
  [ a_movz d (N.land imm 0xFFFF);
    a_movk d (N.land (N.shiftr imm 16) 0xFFFF) 16;
    a_movk d (N.land (N.shiftr imm 32) 0xFFFF) 32;
    a_movk d (N.land (N.shiftr imm 48) 0xFFFF) 48 ].

""" % (f, mql, mql + 4)
    o += emit_list('arm_step_1', 'keccak_1600_armv8_step(c), detail/keccak/%s, before MOVQ(x25, c) (line %d)' % (f, mline), bef)
    o += emit_list('arm_step_2', 'keccak_1600_armv8_step(c), detail/keccak/%s, after MOVQ(x25, c)' % f, aft)
    o += """Definition arm_step (c : N) : list instr := arm_step_1 ++ arm_movq 25 c ++ arm_step_2.

"""
    o += emit_consts('arm_step_constants', 'The arguments of the twenty-four uses of keccak_1600_armv8_step, detail/keccak/%s:%d-%d' % (f, cl - 23, cl), cs)
    o += emit_list('arm_load', 'detail/keccak/%s: before the first step' % f, pre)
    o += emit_list('arm_store', 'detail/keccak/%s: after the last step' % f, post)
    o += """Definition arm_program : list instr :=
  arm_load ++ concat (map arm_step arm_step_constants) ++ arm_store.

(** permute(A), detail/keccak/%s:%d-%d.  [rs] are the contents of x0-x30, [stack] the 32 bytes below
    the stack pointer, the only part of the stack that is within bounds. *)
Definition arm_start (rs : list cval) (stack : list cval) (st : list N) : c_machine :=
  c_state (firstn 31 rs ++ [CP 1 32; CP 0 0]) [] [map CW st; stack].

Definition arm_exec (rs stack : list cval) (st : list N) : option c_machine :=
  c_run arm_program (arm_start rs stack st).

(** The state array afterwards. *)
Definition arm_permute (rs stack : list cval) (st : list N) : option (list N) :=
  match arm_exec rs stack st with
  | Some m => match objects concrete m with a :: _ => words_of a | [] => None end
  | None => None
  end.
""" % (f, 232, 316)
    open(OUT + 'MKeccakArm.v', 'w').write(o)

# ---------------------------------------------------------------- AVX2
def avx2():
    f = 'keccak_avx2_impl.hpp'; ls = lines(f)
    gpr = {'rax': 0, 'rbx': 1, 'rcx': 2, 'rdx': 3, 'rsi': 4, 'rdi': 5, 'rbp': 6, 'rsp': 7}
    gpr.update({'r%d' % i: i for i in range(8, 16)})
    obj = {'rho_l': 0, 'rho_r': 1, 'c': 2}
    def y(s):
        m = re.fullmatch(r'%ymm(\d+)', s.strip()); assert m, s
        return m.group(1)
    def g(s): return str(gpr[s.strip()[1:]])
    def imm(s):
        s = s.strip(); assert s[0] == '$'
        return str(int(s[1:], 0))
    def ins(t):
        op, a = re.fullmatch(r'(\w+)\s+(.*)', t).groups()
        p = [x.strip() for x in a.split(',')]
        mem = re.fullmatch(r'([\d*]*)\((%\w+)\)', p[0])
        if op == 'lea':
            m = re.fullmatch(r'%\[(\w+)\]', p[0])
            if m: return 'x_lea_o %d %s' % (obj[m.group(1)], g(p[1]))
            return 'x_lea %s %s %s' % (z(mem.group(1)), g(mem.group(2)), g(p[1]))
        if op == 'movq':
            assert p[0] == '%[rounds]'; return 'x_mov rounds %s' % g(p[1])
        if op == 'dec': return 'x_dec %s' % g(p[0])
        if op == 'vpxor' and mem: return 'v_pxor_l %s %s %s %s' % (z(mem.group(1)), g(mem.group(2)), y(p[1]), y(p[2]))
        if op in ('vpsllvq', 'vpsrlvq'):
            return 'v_%s %s %s %s %s' % (op[1:], z(mem.group(1)), g(mem.group(2)), y(p[1]), y(p[2]))
        if op in ('vpxor', 'vpor', 'vpandn', 'vpaddq'): return 'v_%s %s %s %s' % ((op[1:],) + tuple(map(y, p)))
        if op in ('vpshufd', 'vpermq', 'vpsrlq', 'vpsrldq'): return 'v_%s %s %s %s' % (op[1:], imm(p[0]), y(p[1]), y(p[2]))
        if op == 'vpblendd': return 'v_pblendd %s %s %s %s' % (imm(p[0]), y(p[1]), y(p[2]), y(p[3]))
        raise SystemExit('avx2: ' + t)
    t = '\n'.join(ls)
    def table(name):
        s = t[t.index(name + ' = {') + len(name) + 3:]
        s = s[:s.index(';')]
        rows = re.findall(r'\{([^{}]*)\}', s)
        return [[('(64 - %s)' % e.strip().split('-')[1].strip()) if 'word_bits' in e else e.strip() for e in r.split(',')] for r in rows]
    rl, rr = table('rho_l'), table('rho_r')
    s = t[t.index('round_constants_v = {'):]; s = s[:s.index(';')]
    cv = [re.findall(r'round_constants\[(\d+)\]', r) for r in re.findall(r'\{([^{}]*)\}', s)]
    assert len(cv) == 24 and all(len(r) == 4 for r in cv)
    a = span(ls, '__asm__ volatile(') + 1
    pre, body = [], []
    cur = pre
    for i in range(a, len(ls)):
        x = lit(ls[i])
        if x is None:
            if ls[i].strip().startswith(':'): break
            assert ls[i].strip() == '' or ls[i].strip().startswith('//'), ls[i]
            continue
        if x == '1:': cur = body; continue
        if x == 'jnz 1b': last = i + 1; break
        cur.append((i + 1, ins(x)))
    sets = re.findall(r'register __m256i A(\d) asm\("ymm(\d)"\) = _mm256_set_epi64x\(([^)]*)\)', t)
    assert [s[0] for s in sets] == [s[1] for s in sets] == list('0123456')
    lanes = [list(reversed(re.findall(r'A\[(\d+)\]', s[2]))) for s in sets]
    outs = re.findall(r'^\s*A\[(\d+)\] = A(\d)\[(\d)\];', t, re.M)
    assert [int(o[0]) for o in outs] == list(range(25))
    o = HEAD % ('The AVX2 assembly of Keccak-f[1600]', 'detail/keccak/' + f)
    o += """(** Registers: 0-15 are rax, rbx, rcx, rdx, rsi, rdi, rbp, rsp, r8, ..., r15; vector registers
    0-15 are ymm0-ymm15, each a list of four lanes, the lowest first.  Objects: 0 is rho_l, 1 is
    rho_r, 2 is round_constants_v. *)
"""
    o += emit_consts('avx2_round_constants', 'detail/keccak/%s:49-57' % f, consts(ls))
    o += '(** detail/keccak/%s: round_constants_v, each row the constant with the index given, four times *)\nDefinition avx2_round_constants_v : list N :=\n  map (fun i => nth i avx2_round_constants 0)\n   [%s]%%nat.\n\n' % (f, ';\n    '.join('; '.join(r) for r in cv))
    o += '(** detail/keccak/%s: rho_l and rho_r *)\nDefinition avx2_rho_l : list N :=\n  [%s].\n' % (f, ';\n   '.join('; '.join(r) for r in rl))
    o += 'Definition avx2_rho_r : list N :=\n  [%s].\n\n' % (';\n   '.join('; '.join(r) for r in rr))
    o += '(** detail/keccak/%s:126-132: the words of the state in the lanes of ymm0-ymm6.  The arguments of\n    _mm256_set_epi64x go from the highest lane to the lowest. *)\nDefinition avx2_lanes : list (list nat) :=\n  [%s]%%nat.\n\n' % (f, ';\n   '.join('[' + '; '.join(r) + ']' for r in lanes))
    o += '(** detail/keccak/%s: the vector register and lane each word of the state is read from *)\nDefinition avx2_outputs : list (nat * nat) :=\n  [%s]%%nat.\n\n' % (f, '; '.join('(%s, %s)' % (x[1], x[2]) for x in outs))
    def fun(s): return s.replace(' : list instr', ' (rounds : nat) : list instr')
    o += fun(emit_list('avx2_prologue', 'detail/keccak/%s: before the label 1; [rounds] is the register the compiler chooses for that operand' % f, pre))
    o += emit_list('avx2_body', 'detail/keccak/%s: from the label 1 to the [dec] before "jnz 1b" (line %d)' % (f, last), body)
    o += """(** permute(A), detail/keccak/%s:124-330.  [rs] and [vs] are the contents of the general and of the
    vector registers, before the operands are put in place. *)
Definition avx2_start (rounds : nat) (rs : list cval) (vs : list (list cval)) (st : list N) : option c_machine :=
  match upd rs rounds (CW 24) with
  | Some rs' =>
      Some (c_state rs' (map (map (fun i => CW (nth i st 0))) avx2_lanes ++ skipn 7 vs)
              [map CW avx2_rho_l; map CW avx2_rho_r; map CW avx2_round_constants_v])
  | None => None
  end.

Definition avx2_exec (fuel rounds : nat) (rs : list cval) (vs : list (list cval)) (st : list N) : option c_machine :=
  match avx2_start rounds rs vs st with
  | Some m =>
      match c_run (avx2_prologue rounds) m with
      | Some m' => c_loop fuel 1 avx2_body m'
      | None => None
      end
  | None => None
  end.

(** The state array afterwards. *)
Definition avx2_read (m : c_machine) : option (list N) :=
  words_of (map (fun p => nth (snd p) (nth (fst p) (vregs concrete m) []) (CP 0 0)) avx2_outputs).

Definition avx2_permute (fuel rounds : nat) (rs : list cval) (vs : list (list cval)) (st : list N) : option (list N) :=
  match avx2_exec fuel rounds rs vs st with
  | Some m => avx2_read m
  | None => None
  end.
""" % f
    open(OUT + 'MKeccakAvx2.v', 'w').write(o)

# ---------------------------------------------------------------- AVX-512
def avx512():
    f = 'keccak_avx512_impl.hpp'; ls = lines(f)
    gpr = {'eax': 0, 'r10': 10}
    t = '\n'.join(ls)
    def zr(s):
        m = re.fullmatch(r'\$?%zmm(\d+)', s.strip()); assert m, s
        return m.group(1)
    def masked(s):
        m = re.fullmatch(r'%zmm(\d+)\{%k(\d)\}', s.strip()); assert m, s
        return '%s %d' % (m.group(1), 16 + int(m.group(2)))
    def g(s): return str(gpr[s.strip()[1:]])
    def ins(t):
        op, a = re.fullmatch(r'(\w+)\s+(.*)', t).groups()
        p = [x.strip() for x in a.split(',')]
        mem = re.fullmatch(r'([-\d]*)\((%\w+)\)', p[0])
        par = lambda s: '(%s)' % s if s.startswith('-') else s
        if op == 'lea':
            if p[0] == '%[c]': return 'x_lea_o 0 %s' % g(p[1])
            return 'x_lea %s %s %s' % (par(z(mem.group(1))), g(mem.group(2)), g(p[1]))
        if op == 'mov': return 'x_mov_i %d %s' % (int(p[0][1:]), g(p[1]))
        if op == 'dec': return 'x_dec %s' % g(p[0])
        if op == 'vmovdqa64': return 'z_mov %s %s' % (zr(p[0]), zr(p[1]))
        if op == 'vpternlogq': return 'z_ternlog %d %s %s %s' % (int(p[0][1:], 0), zr(p[1]), zr(p[2]), zr(p[3]))
        if op == 'vprolq': return 'z_prolq %s %s %s' % (p[0][1:], zr(p[1]), zr(p[2]))
        if op == 'vpermq': return 'z_permq %s %s %s' % tuple(map(zr, p))
        if op == 'vprolvq': return 'z_prolvq %s %s %s' % tuple(map(zr, p))
        if op == 'vpxorq': return 'z_pxorq_l %s %s %s %s' % (par(z(mem.group(1))), g(mem.group(2)), zr(p[1]), masked(p[2]))
        if op == 'vpblendmq': return 'z_blendm %s %s %s' % (zr(p[0]), zr(p[1]), masked(p[2]))
        raise SystemExit('avx512: ' + t)
    def table(name):
        s = t[t.index(' ' + name + ' = {{') + len(name) + 4:]
        s = s[:s.index(';')]
        return [[e.strip() for e in r.split(',')] for r in re.findall(r'\{([^{}]*)\}', s)]
    tabs = {n: table(n) for n in ('rho_0', 'rho_1', 'pi0_perm', 'theta_perm')}
    for n in tabs: assert len(tabs[n]) == 5 and all(len(r) == 8 for r in tabs[n]), n
    a = span(ls, '__asm__ volatile(') + 1
    pre, body = [], []
    cur = pre
    for i in range(a, len(ls)):
        x = lit(ls[i])
        if x is None:
            if ls[i].strip().startswith(':'): break
            assert ls[i].strip() == '' or ls[i].strip().startswith('//'), ls[i]
            continue
        if x == '1:': cur = body; continue
        if re.fullmatch(r'jnz\s+1b', x): last = i + 1; break
        cur.append((i + 1, ins(x)))
    sets = re.findall(r'register __m512i A(\d) asm\("zmm(\d)"\) = _mm512_set_epi64\(([^)]*)\)', t)
    assert [s[0] for s in sets] == [s[1] for s in sets] == list('01234')
    lanes = []
    for s in sets:
        row = []
        for e in reversed(s[2].split(',')):
            m = re.fullmatch(r'A\[(\d+)\]', e.strip())
            if m: row.append('Some %s' % m.group(1))
            else: assert e.strip() == '0'; row.append('None')
        lanes.append(row)
    other = re.findall(r'register __m512i (\w+) asm\("zmm(\d+)"\) = (\w+)\[(\d)\];', t)
    assert [int(x[1]) for x in other] == list(range(13, 32))
    outs = re.findall(r'^\s*A\[(\d+)\] = A(\d)\[(\d)\];', t, re.M)
    assert [int(o[0]) for o in outs] == list(range(25))
    o = HEAD % ('The AVX-512 assembly of Keccak-f[1600]', 'detail/keccak/' + f)
    o += """(** Registers: 0 is eax, 10 is r10, 17-21 are the mask registers k1-k5; vector registers 0-31 are
    zmm0-zmm31, each a list of eight lanes, the lowest first.  Object 0 is round_constants.

    The text is not valid assembly as it stands, and the model repairs it: "%eax" and "%r10" are
    written with one % where an operand string needs two (lines 115, 150, 151, 199 and 217), line 179
    has "$" before a register, and line 150 lacks the line end.  Nothing writes k1-k5, so their
    contents are an argument.  eax is modelled as 64 bits wide. *)
"""
    o += emit_consts('avx512_round_constants', 'detail/keccak/%s:48-56' % f, consts(ls))
    for n, nm in (('rho_0', 'rho_0'), ('rho_1', 'rho_1'), ('pi0_perm', 'pi0_perm'), ('theta_perm', 'theta_perm')):
        o += '(** detail/keccak/%s: %s *)\nDefinition avx512_%s : list (list N) :=\n  [%s].\n' % (f, n, nm, ';\n   '.join('[' + '; '.join(r) + ']' for r in tabs[n]))
    o += '\n(** detail/keccak/%s: the words of the state in the lanes of zmm0-zmm4, [None] for a zero.  The\n    arguments of _mm512_set_epi64 go from the highest lane to the lowest. *)\nDefinition avx512_lanes : list (list (option nat)) :=\n  [%s]%%nat.\n\n' % (f, ';\n   '.join('[' + '; '.join(r) + ']' for r in lanes))
    o += '(** detail/keccak/%s: zmm13-zmm31 *)\nDefinition avx512_tables : list (list N) :=\n  [%s].\n\n' % (f, ';\n   '.join('nth %s avx512_%s []' % (x[3], x[2]) for x in other))
    o += '(** detail/keccak/%s: the vector register and lane each word of the state is read from *)\nDefinition avx512_outputs : list (nat * nat) :=\n  [%s]%%nat.\n\n' % (f, '; '.join('(%s, %s)' % (x[1], x[2]) for x in outs))
    o += emit_list('avx512_prologue', 'detail/keccak/%s: before the label 1' % f, pre)
    o += emit_list('avx512_body', 'detail/keccak/%s: from the label 1 to the [dec] before "jnz 1b" (line %d)' % (f, last), body)
    o += """(** permute(A), detail/keccak/%s:82-255.  [rs] holds the general and mask registers and [vs] what
    zmm5-zmm12 hold before. *)
Definition avx512_start (lanes : list (list (option nat))) (rs : list cval) (vs : list (list cval)) (st : list N) : c_machine :=
  c_state rs
    (map (map (fun l => match l with Some i => CW (nth i st 0) | None => CW 0 end)) lanes ++ firstn 8 vs ++
     map (map CW) avx512_tables) [map CW avx512_round_constants].

Definition avx512_exec (fuel : nat) (lanes : list (list (option nat))) (rs : list cval) (vs : list (list cval)) (st : list N) : option c_machine :=
  match c_run avx512_prologue (avx512_start lanes rs vs st) with
  | Some m => c_loop fuel 0 avx512_body m
  | None => None
  end.

(** The state array afterwards. *)
Definition avx512_read (m : c_machine) : option (list N) :=
  words_of (map (fun p => nth (snd p) (nth (fst p) (vregs concrete m) []) (CP 0 0)) avx512_outputs).

Definition avx512_permute (fuel : nat) (rs : list cval) (vs : list (list cval)) (st : list N) : option (list N) :=
  match avx512_exec fuel avx512_lanes rs vs st with
  | Some m => avx512_read m
  | None => None
  end.
""" % f
    open(OUT + 'MKeccakAvx512.v', 'w').write(o)

x86(); arm(); avx2(); avx512()
