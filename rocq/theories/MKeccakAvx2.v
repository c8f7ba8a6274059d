(** * The AVX2 assembly of Keccak-f[1600]

    Generated by tools/asm_keccak.py from detail/keccak/keccak_avx2_impl.hpp; each instruction carries the line it is on. *)
From Coq Require Import NArith ZArith List.
From Verif Require Import MAsm.
Import ListNotations.
Local Open Scope N_scope.

(** Registers: 0-15 are rax, rbx, rcx, rdx, rsi, rdi, rbp, rsp, r8, ..., r15; vector registers
    0-15 are ymm0-ymm15, each a list of four lanes, the lowest first.  Objects: 0 is rho_l, 1 is
    rho_r, 2 is round_constants_v. *)
(** detail/keccak/keccak_avx2_impl.hpp:49-57 *)
Definition avx2_round_constants : list N :=
  [0x0000000000000001;
   0x0000000000008082;
   0x800000000000808a;
   0x8000000080008000;
   0x000000000000808b;
   0x0000000080000001;
   0x8000000080008081;
   0x8000000000008009;
   0x000000000000008a;
   0x0000000000000088;
   0x0000000080008009;
   0x000000008000000a;
   0x000000008000808b;
   0x800000000000008b;
   0x8000000000008089;
   0x8000000000008003;
   0x8000000000008002;
   0x8000000000000080;
   0x000000000000800a;
   0x800000008000000a;
   0x8000000080008081;
   0x8000000000008080;
   0x0000000080000001;
   0x8000000080008008].

(** detail/keccak/keccak_avx2_impl.hpp: round_constants_v, each row the constant with the index given, four times *)
Definition avx2_round_constants_v : list N :=
  map (fun i => nth i avx2_round_constants 0)
   [0; 0; 0; 0;
    1; 1; 1; 1;
    2; 2; 2; 2;
    3; 3; 3; 3;
    4; 4; 4; 4;
    5; 5; 5; 5;
    6; 6; 6; 6;
    7; 7; 7; 7;
    8; 8; 8; 8;
    9; 9; 9; 9;
    10; 10; 10; 10;
    11; 11; 11; 11;
    12; 12; 12; 12;
    13; 13; 13; 13;
    14; 14; 14; 14;
    15; 15; 15; 15;
    16; 16; 16; 16;
    17; 17; 17; 17;
    18; 18; 18; 18;
    19; 19; 19; 19;
    20; 20; 20; 20;
    21; 21; 21; 21;
    22; 22; 22; 22;
    23; 23; 23; 23]%nat.

(** detail/keccak/keccak_avx2_impl.hpp: rho_l and rho_r *)
Definition avx2_rho_l : list N :=
  [3; 18; 36; 41;
   1; 62; 28; 27;
   45; 6; 56; 39;
   10; 61; 55; 8;
   2; 15; 25; 20;
   44; 43; 21; 14].
Definition avx2_rho_r : list N :=
  [(64 - 3); (64 - 18); (64 - 36); (64 - 41);
   (64 - 1); (64 - 62); (64 - 28); (64 - 27);
   (64 - 45); (64 - 6); (64 - 56); (64 - 39);
   (64 - 10); (64 - 61); (64 - 55); (64 - 8);
   (64 - 2); (64 - 15); (64 - 25); (64 - 20);
   (64 - 44); (64 - 43); (64 - 21); (64 - 14)].

(** detail/keccak/keccak_avx2_impl.hpp:126-132: the words of the state in the lanes of ymm0-ymm6.  The arguments of
    _mm256_set_epi64x go from the highest lane to the lowest. *)
Definition avx2_lanes : list (list nat) :=
  [[0; 0; 0; 0];
   [1; 2; 3; 4];
   [10; 20; 5; 15];
   [16; 7; 23; 14];
   [11; 22; 8; 19];
   [21; 17; 13; 9];
   [6; 12; 18; 24]]%nat.

(** detail/keccak/keccak_avx2_impl.hpp: the vector register and lane each word of the state is read from *)
Definition avx2_outputs : list (nat * nat) :=
  [(0, 0); (1, 0); (1, 1); (1, 2); (1, 3); (2, 2); (6, 0); (3, 1); (4, 2); (5, 3); (2, 0); (4, 0); (6, 1); (5, 2); (3, 3); (2, 3); (3, 0); (5, 1); (6, 2); (4, 3); (2, 1); (5, 0); (4, 1); (3, 2); (6, 3)]%nat.

(** detail/keccak/keccak_avx2_impl.hpp: before the label 1; [rounds] is the register the compiler chooses for that operand *)
Definition avx2_prologue (rounds : nat) : list instr :=
  [
    x_lea_o 0 8; (* 135 *)
    x_lea_o 1 9; (* 136 *)
    x_lea_o 2 10; (* 137 *)
    x_mov rounds 1 (* 138 *)
  ].

(** detail/keccak/keccak_avx2_impl.hpp: from the label 1 to the [dec] before "jnz 1b" (line 293) *)
Definition avx2_body : list instr :=
  [
    v_pshufd 78 2 13; (* 142 *)
    v_pxor 3 5 12; (* 143 *)
    v_pxor 6 4 9; (* 144 *)
    v_pxor 1 12 12; (* 145 *)
    v_pxor 9 12 12; (* 146 *)
    v_permq 147 12 11; (* 148 *)
    v_pxor 2 13 13; (* 149 *)
    v_permq 78 13 7; (* 150 *)
    v_psrlq 63 12 8; (* 153 *)
    v_paddq 12 12 9; (* 154 *)
    v_por 9 8 8; (* 155 *)
    v_permq 57 8 15; (* 158 *)
    v_pxor 11 8 14; (* 159 *)
    v_permq 0 14 14; (* 160 *)
    v_pxor 0 13 13; (* 163 *)
    v_pxor 7 13 13; (* 164 *)
    v_psrlq 63 13 7; (* 167 *)
    v_paddq 13 13 8; (* 168 *)
    v_por 7 8 8; (* 169 *)
    v_pblendd 192 8 15 15; (* 172 *)
    v_pblendd 3 13 11 11; (* 173 *)
    v_pxor 11 15 15; (* 174 *)
    v_pxor 14 0 0; (* 177 *)
    v_pxor 15 1 1; (* 178 *)
    v_pxor 14 2 2; (* 179 *)
    v_pxor 15 3 3; (* 180 *)
    v_pxor 15 4 4; (* 181 *)
    v_pxor 15 5 5; (* 182 *)
    v_pxor 15 6 6; (* 183 *)
    v_psllvq 0 8 2 10; (* 186 *)
    v_psrlvq 0 9 2 2; (* 187 *)
    v_por 10 2 2; (* 188 *)
    v_psllvq 32 8 1 10; (* 190 *)
    v_psrlvq 32 9 1 9; (* 191 *)
    v_por 10 9 9; (* 192 *)
    v_psllvq 64 8 3 10; (* 194 *)
    v_psrlvq 64 9 3 3; (* 195 *)
    v_por 10 3 3; (* 196 *)
    v_psllvq 96 8 4 10; (* 198 *)
    v_psrlvq 96 9 4 4; (* 199 *)
    v_por 10 4 4; (* 200 *)
    v_psllvq 128 8 5 10; (* 202 *)
    v_psrlvq 128 9 5 5; (* 203 *)
    v_por 10 5 5; (* 204 *)
    v_psllvq 160 8 6 10; (* 206 *)
    v_psrlvq 160 9 6 8; (* 207 *)
    v_por 10 8 8; (* 208 *)
    v_permq 141 2 10; (* 211 *)
    v_permq 141 3 11; (* 212 *)
    v_permq 27 4 12; (* 213 *)
    v_permq 114 5 13; (* 214 *)
    v_psrldq 8 8 14; (* 217 *)
    v_pandn 14 8 7; (* 218 *)
    v_pblendd 12 9 11 15; (* 220 *)
    v_pblendd 48 12 15 15; (* 221 *)
    v_pblendd 192 13 15 15; (* 222 *)
    v_pblendd 12 10 9 14; (* 224 *)
    v_pblendd 48 13 14 14; (* 225 *)
    v_pblendd 192 11 14 14; (* 226 *)
    v_pblendd 12 13 9 3; (* 228 *)
    v_pblendd 48 11 3 3; (* 229 *)
    v_pblendd 192 12 3 3; (* 230 *)
    v_pblendd 12 11 10 5; (* 232 *)
    v_pblendd 48 9 5 5; (* 233 *)
    v_pblendd 192 13 5 5; (* 234 *)
    v_pandn 14 5 5; (* 236 *)
    v_pandn 15 3 3; (* 237 *)
    v_pblendd 12 9 12 6; (* 239 *)
    v_pblendd 48 10 6 6; (* 240 *)
    v_pblendd 192 11 6 6; (* 241 *)
    v_pblendd 12 12 10 15; (* 243 *)
    v_pblendd 48 11 15 15; (* 244 *)
    v_pblendd 192 9 15 15; (* 245 *)
    v_pandn 15 6 6; (* 247 *)
    v_pxor 13 6 6; (* 248 *)
    v_permq 30 8 4; (* 250 *)
    v_pblendd 48 0 4 15; (* 251 *)
    v_permq 57 8 1; (* 252 *)
    v_pblendd 192 0 1 1; (* 253 *)
    v_pandn 15 1 1; (* 254 *)
    v_pblendd 12 12 11 2; (* 256 *)
    v_pblendd 48 13 2 2; (* 257 *)
    v_pblendd 192 10 2 2; (* 258 *)
    v_pblendd 12 11 13 14; (* 260 *)
    v_pblendd 48 10 14 14; (* 261 *)
    v_pblendd 192 12 14 14; (* 262 *)
    v_pandn 14 2 2; (* 264 *)
    v_pblendd 12 10 13 4; (* 266 *)
    v_pblendd 48 12 4 4; (* 267 *)
    v_pblendd 192 9 4 4; (* 268 *)
    v_pblendd 12 13 12 14; (* 269 *)
    v_pblendd 48 9 14 14; (* 270 *)
    v_pblendd 192 10 14 14; (* 271 *)
    v_pandn 14 4 4; (* 273 *)
    v_pxor 9 2 2; (* 275 *)
    v_pxor 10 3 3; (* 276 *)
    v_pxor 12 5 5; (* 277 *)
    v_permq 0 7 7; (* 279 *)
    v_permq 27 3 3; (* 280 *)
    v_permq 141 5 5; (* 281 *)
    v_permq 114 6 6; (* 282 *)
    v_pxor 7 0 0; (* 284 *)
    v_pxor 8 1 1; (* 285 *)
    v_pxor 11 4 4; (* 286 *)
    v_pxor_l 0 10 0 0; (* 289 *)
    x_lea 32 10 10; (* 290 *)
    x_dec 1 (* 292 *)
  ].

(** permute(A), detail/keccak/keccak_avx2_impl.hpp:124-330.  [rs] and [vs] are the contents of the general and of the
    vector registers, before the operands are put in place. *)
Definition avx2_start (rounds : nat) (rs : list cval) (vs : list (list cval)) (st : list N) : option c_machine :=
  match upd rs rounds (CW 24) with
  | Some rs' =>
      Some (c_state rs' (map (map (fun i => CW (nth i st 0))) avx2_lanes ++ skipn 7 vs)
              [map CW avx2_rho_l; map CW avx2_rho_r; map CW avx2_round_constants_v])
  | None => None
  end.

Definition avx2_exec (fuel rounds : nat) (rs : list cval) (vs : list (list cval)) (st : list N) : option c_machine :=
  match avx2_start rounds rs vs st with
  | Some m =>
      match c_run (avx2_prologue rounds) m with
      | Some m' => c_loop fuel 1 avx2_body m'
      | None => None
      end
  | None => None
  end.

(** The state array afterwards. *)
Definition avx2_read (m : c_machine) : option (list N) :=
  words_of (map (fun p => nth (snd p) (nth (fst p) (vregs concrete m) []) (CP 0 0)) avx2_outputs).

Definition avx2_permute (fuel rounds : nat) (rs : list cval) (vs : list (list cval)) (st : list N) : option (list N) :=
  match avx2_exec fuel rounds rs vs st with
  | Some m => avx2_read m
  | None => None
  end.
