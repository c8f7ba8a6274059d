(** * The ARMv8 assembly of Keccak-f[1600]

    Generated by tools/asm_keccak.py from detail/keccak/keccak_armv8_impl.hpp; each instruction carries the line it is on. *)
From Coq Require Import NArith ZArith List.
From Verif Require Import MAsm.
Import ListNotations.
Local Open Scope N_scope.

(** Registers: 0-30 are x0-x30, 31 is sp, 32 is the register the compiler chooses for the operand
    [A] (x1, x18 or x29, the ones not in the clobber list of lines 312-315).  Objects: 0 is the state
    array, 1 the stack. *)

(** MOVQ, detail/keccak/keccak_armv8_impl.hpp:32-36. *)
Definition arm_movq (d : nat) (imm : N) : list instr :=
  [ a_movz d (N.land imm 0xFFFF);
    a_movk d (N.land (N.shiftr imm 16) 0xFFFF) 16;
    a_movk d (N.land (N.shiftr imm 32) 0xFFFF) 32;
    a_movk d (N.land (N.shiftr imm 48) 0xFFFF) 48 ].

(** keccak_1600_armv8_step(c), detail/keccak/keccak_armv8_impl.hpp, before MOVQ(x25, c) (line 202) *)
Definition arm_step_1 : list instr :=
  [
    a_add 31 31 (-32); (* 39 *)
    a_eor 25 0 5; (* 41 *)
    a_stp 4 9 31; (* 43 *)
    a_str 0 31 16; (* 45 *)
    a_ldr 0 32 8; (* 46 *)
    a_eor 26 0 6; (* 47 *)
    a_eor 27 2 7; (* 48 *)
    a_eor 28 3 8; (* 49 *)
    a_eor 4 4 9; (* 51 *)
    a_eor 25 25 10; (* 52 *)
    a_eor 26 26 11; (* 53 *)
    a_eor 27 27 12; (* 54 *)
    a_eor 28 28 13; (* 55 *)
    a_eor 4 4 14; (* 56 *)
    a_eor 25 25 15; (* 57 *)
    a_eor 26 26 16; (* 58 *)
    a_eor 27 27 17; (* 59 *)
    a_eor 28 28 30; (* 60 *)
    a_eor 4 4 19; (* 61 *)
    a_eor 25 25 20; (* 62 *)
    a_eor 27 27 22; (* 63 *)
    a_eor 26 26 21; (* 64 *)
    a_eor 28 28 23; (* 65 *)
    a_eor 4 4 24; (* 66 *)
    a_eor_ror 9 25 27 63; (* 67 *)
    a_eor 0 0 9; (* 69 *)
    a_str 0 32 8; (* 70 *)
    a_ldr 0 31 16; (* 71 *)
    a_eor 6 6 9; (* 73 *)
    a_eor 11 11 9; (* 74 *)
    a_eor 16 16 9; (* 75 *)
    a_eor 21 21 9; (* 76 *)
    a_eor_ror 9 26 28 63; (* 77 *)
    a_eor_ror 27 27 4 63; (* 78 *)
    a_eor_ror 28 28 25 63; (* 79 *)
    a_eor_ror 4 4 26 63; (* 80 *)
    a_eor 26 2 9; (* 81 *)
    a_eor 7 7 9; (* 82 *)
    a_eor 12 12 9; (* 83 *)
    a_eor 17 17 9; (* 84 *)
    a_eor 22 22 9; (* 85 *)
    a_eor 0 0 4; (* 87 *)
    a_eor 5 5 4; (* 88 *)
    a_eor 10 10 4; (* 89 *)
    a_eor 15 15 4; (* 90 *)
    a_eor 20 20 4; (* 91 *)
    a_ldp 4 9 31; (* 93 *)
    a_eor 25 3 27; (* 95 *)
    a_eor 8 8 27; (* 96 *)
    a_eor 13 13 27; (* 97 *)
    a_eor 30 30 27; (* 98 *)
    a_eor 23 23 27; (* 99 *)
    a_eor 27 4 28; (* 100 *)
    a_eor 9 9 28; (* 101 *)
    a_eor 14 14 28; (* 102 *)
    a_eor 19 19 28; (* 103 *)
    a_eor 24 24 28; (* 104 *)
    a_str 0 31 16; (* 106 *)
    a_ldr 0 32 8; (* 107 *)
    a_mov 28 0; (* 108 *)
    a_ror 0 6 20; (* 109 *)
    a_ror 2 12 21; (* 110 *)
    a_ror 3 30 43; (* 111 *)
    a_ror 4 24 50; (* 112 *)
    a_ror 6 9 44; (* 114 *)
    a_ror 12 13 39; (* 115 *)
    a_ror 30 17 49; (* 116 *)
    a_ror 24 21 62; (* 117 *)
    a_ror 9 22 3; (* 119 *)
    a_ror 13 19 56; (* 120 *)
    a_ror 17 11 54; (* 121 *)
    a_ror 21 8 9; (* 122 *)
    a_ror 22 14 25; (* 124 *)
    a_ror 19 23 8; (* 125 *)
    a_ror 11 7 58; (* 126 *)
    a_ror 8 16 19; (* 127 *)
    a_ror 14 20 46; (* 129 *)
    a_ror 23 15 23; (* 130 *)
    a_ror 7 10 61; (* 131 *)
    a_ror 16 5 28; (* 132 *)
    a_ror 5 25 36; (* 134 *)
    a_ror 10 28 63; (* 135 *)
    a_ror 15 27 37; (* 136 *)
    a_ror 20 26 2; (* 137 *)
    a_bic 25 2 0; (* 139 *)
    a_str 0 32 8; (* 140 *)
    a_ldr 0 31 16; (* 141 *)
    a_bic 26 3 2; (* 143 *)
    a_str 2 31 16; (* 145 *)
    a_ldr 2 32 8; (* 146 *)
    a_bic 27 0 4; (* 147 *)
    a_bic 28 2 0; (* 148 *)
    a_eor 0 0 25; (* 149 *)
    a_bic 25 4 3; (* 151 *)
    a_eor 2 2 26; (* 152 *)
    a_str 2 32 8; (* 153 *)
    a_ldr 2 31 16; (* 154 *)
    a_eor 3 3 27; (* 156 *)
    a_eor 4 4 28; (* 157 *)
    a_eor 2 2 25; (* 158 *)
    a_bic 25 7 6; (* 160 *)
    a_bic 26 8 7; (* 162 *)
    a_bic 27 5 9; (* 163 *)
    a_bic 28 6 5; (* 165 *)
    a_eor 5 5 25; (* 166 *)
    a_bic 25 9 8; (* 167 *)
    a_eor 6 6 26; (* 168 *)
    a_eor 8 8 27; (* 169 *)
    a_eor 9 9 28; (* 170 *)
    a_eor 7 7 25; (* 171 *)
    a_bic 25 12 11; (* 172 *)
    a_bic 26 13 12; (* 173 *)
    a_bic 27 10 14; (* 174 *)
    a_bic 28 11 10; (* 175 *)
    a_eor 10 10 25; (* 176 *)
    a_bic 25 14 13; (* 177 *)
    a_eor 11 11 26; (* 178 *)
    a_eor 13 13 27; (* 179 *)
    a_eor 14 14 28; (* 180 *)
    a_eor 12 12 25; (* 181 *)
    a_bic 25 17 16; (* 182 *)
    a_bic 26 30 17; (* 183 *)
    a_bic 27 15 19; (* 184 *)
    a_bic 28 16 15; (* 185 *)
    a_eor 15 15 25; (* 186 *)
    a_bic 25 19 30; (* 187 *)
    a_eor 16 16 26; (* 188 *)
    a_eor 30 30 27; (* 189 *)
    a_eor 19 19 28; (* 190 *)
    a_eor 17 17 25; (* 191 *)
    a_bic 25 22 21; (* 192 *)
    a_bic 26 23 22; (* 193 *)
    a_bic 27 20 24; (* 194 *)
    a_bic 28 21 20; (* 195 *)
    a_eor 20 20 25; (* 196 *)
    a_bic 25 24 23; (* 197 *)
    a_eor 21 21 26; (* 198 *)
    a_eor 23 23 27; (* 199 *)
    a_eor 24 24 28; (* 200 *)
    a_eor 22 22 25 (* 201 *)
  ].

(** keccak_1600_armv8_step(c), detail/keccak/keccak_armv8_impl.hpp, after MOVQ(x25, c) *)
Definition arm_step_2 : list instr :=
  [
    a_eor 0 0 25; (* 204 *)
    a_add 31 31 32 (* 205 *)
  ].

Definition arm_step (c : N) : list instr := arm_step_1 ++ arm_movq 25 c ++ arm_step_2.

(** The arguments of the twenty-four uses of keccak_1600_armv8_step, detail/keccak/keccak_armv8_impl.hpp:260-283 *)
Definition arm_step_constants : list N :=
  [0x0000000000000001;
   0x0000000000008082;
   0x800000000000808a;
   0x8000000080008000;
   0x000000000000808b;
   0x0000000080000001;
   0x8000000080008081;
   0x8000000000008009;
   0x000000000000008a;
   0x0000000000000088;
   0x0000000080008009;
   0x000000008000000a;
   0x000000008000808b;
   0x800000000000008b;
   0x8000000000008089;
   0x8000000000008003;
   0x8000000000008002;
   0x8000000000000080;
   0x000000000000800a;
   0x800000008000000a;
   0x8000000080008081;
   0x8000000000008080;
   0x0000000080000001;
   0x8000000080008008].

(** detail/keccak/keccak_armv8_impl.hpp: before the first step *)
Definition arm_load : list instr :=
  [
    a_ldr 0 32 0; (* 234 *)
    a_ldr 2 32 16; (* 236 *)
    a_ldr 3 32 24; (* 237 *)
    a_ldr 4 32 32; (* 238 *)
    a_ldr 5 32 40; (* 239 *)
    a_ldr 6 32 48; (* 240 *)
    a_ldr 7 32 56; (* 241 *)
    a_ldr 8 32 64; (* 242 *)
    a_ldr 9 32 72; (* 243 *)
    a_ldr 10 32 80; (* 244 *)
    a_ldr 11 32 88; (* 245 *)
    a_ldr 12 32 96; (* 246 *)
    a_ldr 13 32 104; (* 247 *)
    a_ldr 14 32 112; (* 248 *)
    a_ldr 15 32 120; (* 249 *)
    a_ldr 16 32 128; (* 250 *)
    a_ldr 17 32 136; (* 251 *)
    a_ldr 30 32 144; (* 252 *)
    a_ldr 19 32 152; (* 253 *)
    a_ldr 20 32 160; (* 254 *)
    a_ldr 21 32 168; (* 255 *)
    a_ldr 22 32 176; (* 256 *)
    a_ldr 23 32 184; (* 257 *)
    a_ldr 24 32 192 (* 258 *)
  ].

(** detail/keccak/keccak_armv8_impl.hpp: after the last step *)
Definition arm_store : list instr :=
  [
    a_str 0 32 0; (* 285 *)
    a_str 2 32 16; (* 287 *)
    a_str 3 32 24; (* 288 *)
    a_str 4 32 32; (* 289 *)
    a_str 5 32 40; (* 290 *)
    a_str 6 32 48; (* 291 *)
    a_str 7 32 56; (* 292 *)
    a_str 8 32 64; (* 293 *)
    a_str 9 32 72; (* 294 *)
    a_str 10 32 80; (* 295 *)
    a_str 11 32 88; (* 296 *)
    a_str 12 32 96; (* 297 *)
    a_str 13 32 104; (* 298 *)
    a_str 14 32 112; (* 299 *)
    a_str 15 32 120; (* 300 *)
    a_str 16 32 128; (* 301 *)
    a_str 17 32 136; (* 302 *)
    a_str 30 32 144; (* 303 *)
    a_str 19 32 152; (* 304 *)
    a_str 20 32 160; (* 305 *)
    a_str 21 32 168; (* 306 *)
    a_str 22 32 176; (* 307 *)
    a_str 23 32 184; (* 308 *)
    a_str 24 32 192 (* 309 *)
  ].

Definition arm_program : list instr :=
  arm_load ++ concat (map arm_step arm_step_constants) ++ arm_store.

(** permute(A), detail/keccak/keccak_armv8_impl.hpp:232-316.  [rs] are the contents of x0-x30, [stack] the 32 bytes below
    the stack pointer, the only part of the stack that is within bounds. *)
Definition arm_start (rs : list cval) (stack : list cval) (st : list N) : c_machine :=
  c_state (firstn 31 rs ++ [CP 1 32; CP 0 0]) [] [map CW st; stack].

Definition arm_exec (rs stack : list cval) (st : list N) : option c_machine :=
  c_run arm_program (arm_start rs stack st).

(** The state array afterwards. *)
Definition arm_permute (rs stack : list cval) (st : list N) : option (list N) :=
  match arm_exec rs stack st with
  | Some m => match objects concrete m with a :: _ => words_of a | [] => None end
  | None => None
  end.
