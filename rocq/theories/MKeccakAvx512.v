(** * The AVX-512 assembly of Keccak-f[1600]

    Generated by tools/asm_keccak.py from detail/keccak/keccak_avx512_impl.hpp; each instruction carries the line it is on. *)
From Coq Require Import NArith ZArith List.
From Verif Require Import MAsm.
Import ListNotations.
Local Open Scope N_scope.

(** Registers: 0 is eax, 10 is r10, 17-21 are the mask registers k1-k5; vector registers 0-31 are
    zmm0-zmm31, each a list of eight lanes, the lowest first.  Object 0 is round_constants.

    The text is not valid assembly as it stands, and the model repairs it: "%eax" and "%r10" are
    written with one % where an operand string needs two (lines 115, 150, 151, 199 and 217), line 179
    has "$" before a register, and line 150 lacks the line end.  Nothing writes k1-k5, so their
    contents are an argument.  eax is modelled as 64 bits wide. *)
(** detail/keccak/keccak_avx512_impl.hpp:48-56 *)
Definition avx512_round_constants : list N :=
  [0x0000000000000001;
   0x0000000000008082;
   0x800000000000808a;
   0x8000000080008000;
   0x000000000000808b;
   0x0000000080000001;
   0x8000000080008081;
   0x8000000000008009;
   0x000000000000008a;
   0x0000000000000088;
   0x0000000080008009;
   0x000000008000000a;
   0x000000008000808b;
   0x800000000000008b;
   0x8000000000008089;
   0x8000000000008003;
   0x8000000000008002;
   0x8000000000000080;
   0x000000000000800a;
   0x800000008000000a;
   0x8000000080008081;
   0x8000000000008080;
   0x0000000080000001;
   0x8000000080008008].

(** detail/keccak/keccak_avx512_impl.hpp: rho_0 *)
Definition avx512_rho_0 : list (list N) :=
  [[0; 1; 62; 28; 27; 0; 0; 0];
   [36; 44; 6; 55; 20; 0; 0; 0];
   [3; 10; 43; 25; 39; 0; 0; 0];
   [41; 45; 15; 21; 8; 0; 0; 0];
   [18; 2; 61; 56; 14; 0; 0; 0]].
(** detail/keccak/keccak_avx512_impl.hpp: rho_1 *)
Definition avx512_rho_1 : list (list N) :=
  [[0; 44; 43; 21; 14; 0; 0; 0];
   [18; 1; 6; 25; 8; 0; 0; 0];
   [41; 2; 62; 55; 39; 0; 0; 0];
   [3; 45; 61; 28; 20; 0; 0; 0];
   [36; 10; 15; 56; 27; 0; 0; 0]].
(** detail/keccak/keccak_avx512_impl.hpp: pi0_perm *)
Definition avx512_pi0_perm : list (list N) :=
  [[0; 3; 1; 4; 2; 5; 6; 7];
   [1; 4; 2; 0; 3; 5; 6; 7];
   [2; 0; 3; 1; 4; 5; 6; 7];
   [3; 1; 4; 2; 0; 5; 6; 7];
   [4; 2; 0; 3; 1; 5; 6; 7]].
(** detail/keccak/keccak_avx512_impl.hpp: theta_perm *)
Definition avx512_theta_perm : list (list N) :=
  [[0; 1; 2; 3; 4; 5; 6; 7];
   [4; 0; 1; 2; 3; 5; 6; 7];
   [3; 4; 0; 1; 2; 5; 6; 7];
   [2; 3; 4; 0; 1; 5; 6; 7];
   [1; 2; 3; 4; 0; 5; 6; 7]].

(** detail/keccak/keccak_avx512_impl.hpp: the words of the state in the lanes of zmm0-zmm4, [None] for a zero.  The
    arguments of _mm512_set_epi64 go from the highest lane to the lowest. *)
Definition avx512_lanes : list (list (option nat)) :=
  [[None; None; None; Some 0; Some 1; Some 2; Some 3; Some 4];
   [None; None; None; Some 5; Some 6; Some 7; Some 8; Some 9];
   [None; None; None; Some 10; Some 11; Some 12; Some 13; Some 14];
   [None; None; None; Some 15; Some 16; Some 17; Some 18; Some 19];
   [None; None; None; Some 20; Some 21; Some 22; Some 23; Some 24]]%nat.

(** detail/keccak/keccak_avx512_impl.hpp: zmm13-zmm31 *)
Definition avx512_tables : list (list N) :=
  [nth 1 avx512_theta_perm [];
   nth 2 avx512_theta_perm [];
   nth 3 avx512_theta_perm [];
   nth 4 avx512_theta_perm [];
   nth 0 avx512_pi0_perm [];
   nth 1 avx512_pi0_perm [];
   nth 2 avx512_pi0_perm [];
   nth 3 avx512_pi0_perm [];
   nth 4 avx512_pi0_perm [];
   nth 0 avx512_rho_0 [];
   nth 1 avx512_rho_0 [];
   nth 2 avx512_rho_0 [];
   nth 3 avx512_rho_0 [];
   nth 4 avx512_rho_0 [];
   nth 0 avx512_rho_1 [];
   nth 1 avx512_rho_1 [];
   nth 2 avx512_rho_1 [];
   nth 3 avx512_rho_1 [];
   nth 4 avx512_rho_1 []].

(** detail/keccak/keccak_avx512_impl.hpp: the vector register and lane each word of the state is read from *)
Definition avx512_outputs : list (nat * nat) :=
  [(0, 0); (0, 1); (0, 2); (0, 3); (0, 4); (1, 0); (1, 1); (1, 2); (1, 3); (1, 4); (2, 0); (2, 1); (2, 2); (2, 3); (2, 4); (3, 0); (3, 1); (3, 2); (3, 3); (3, 4); (4, 0); (4, 1); (4, 2); (4, 3); (4, 4)]%nat.

(** detail/keccak/keccak_avx512_impl.hpp: before the label 1 *)
Definition avx512_prologue : list instr :=
  [
    x_lea_o 0 10; (* 114 *)
    x_mov_i 12 0 (* 115 *)
  ].

(** detail/keccak/keccak_avx512_impl.hpp: from the label 1 to the [dec] before "jnz 1b" (line 218) *)
Definition avx512_body : list instr :=
  [
    z_mov 0 5; (* 118 *)
    z_ternlog 150 2 1 0; (* 119 *)
    z_ternlog 150 4 3 0; (* 120 *)
    z_prolq 1 0 6; (* 121 *)
    z_permq 0 13 0; (* 122 *)
    z_permq 6 16 6; (* 123 *)
    z_ternlog 150 0 6 5; (* 124 *)
    z_ternlog 150 0 6 1; (* 125 *)
    z_ternlog 150 0 6 2; (* 126 *)
    z_ternlog 150 0 6 3; (* 127 *)
    z_ternlog 150 0 6 4; (* 128 *)
    z_prolvq 22 5 0; (* 130 *)
    z_prolvq 23 1 1; (* 131 *)
    z_prolvq 24 2 2; (* 132 *)
    z_prolvq 25 3 3; (* 133 *)
    z_prolvq 26 4 4; (* 134 *)
    z_permq 0 17 0; (* 136 *)
    z_permq 1 18 1; (* 137 *)
    z_permq 2 19 2; (* 138 *)
    z_permq 3 20 3; (* 139 *)
    z_permq 4 21 4; (* 140 *)
    z_mov 0 5; (* 142 *)
    z_mov 1 6; (* 143 *)
    z_ternlog 210 2 1 0; (* 144 *)
    z_ternlog 210 3 2 1; (* 145 *)
    z_ternlog 210 4 3 2; (* 146 *)
    z_ternlog 210 5 4 3; (* 147 *)
    z_ternlog 210 6 5 4; (* 148 *)
    z_pxorq_l 0 10 0 0 17; (* 150 *)
    x_lea 16 10 10; (* 151 *)
    z_blendm 2 1 6 18; (* 153 *)
    z_blendm 3 2 7 18; (* 154 *)
    z_blendm 4 3 8 18; (* 155 *)
    z_blendm 1 0 5 18; (* 156 *)
    z_blendm 0 4 9 18; (* 157 *)
    z_blendm 3 6 6 19; (* 158 *)
    z_blendm 4 7 7 19; (* 159 *)
    z_blendm 2 5 5 19; (* 160 *)
    z_blendm 0 8 8 19; (* 161 *)
    z_blendm 1 9 9 19; (* 162 *)
    z_blendm 4 6 6 20; (* 163 *)
    z_blendm 3 5 5 20; (* 164 *)
    z_blendm 0 7 7 20; (* 165 *)
    z_blendm 1 8 8 20; (* 166 *)
    z_blendm 2 9 9 20; (* 167 *)
    z_blendm 4 5 5 21; (* 168 *)
    z_blendm 0 6 6 21; (* 169 *)
    z_blendm 1 7 7 21; (* 170 *)
    z_blendm 2 8 8 21; (* 171 *)
    z_blendm 3 9 9 21; (* 172 *)
    z_permq 6 13 1; (* 174 *)
    z_permq 7 14 2; (* 175 *)
    z_permq 8 15 3; (* 176 *)
    z_permq 9 16 4; (* 177 *)
    z_mov 5 0; (* 179 *)
    z_ternlog 150 2 1 5; (* 180 *)
    z_ternlog 150 4 3 5; (* 181 *)
    z_prolq 1 5 6; (* 182 *)
    z_permq 5 13 5; (* 183 *)
    z_permq 6 16 6; (* 184 *)
    z_ternlog 150 5 6 0; (* 185 *)
    z_ternlog 150 5 6 3; (* 186 *)
    z_ternlog 150 5 6 1; (* 187 *)
    z_ternlog 150 5 6 4; (* 188 *)
    z_ternlog 150 5 6 2; (* 189 *)
    z_prolvq 27 0 0; (* 191 *)
    z_prolvq 30 3 6; (* 192 *)
    z_prolvq 28 1 7; (* 193 *)
    z_prolvq 31 4 8; (* 194 *)
    z_prolvq 29 2 9; (* 195 *)
    z_permq 0 16 10; (* 196 *)
    z_permq 0 15 11; (* 197 *)
    z_pxorq_l (-8) 10 0 0 17; (* 199 *)
    z_permq 6 14 1; (* 201 *)
    z_permq 7 16 2; (* 202 *)
    z_permq 8 13 3; (* 203 *)
    z_permq 9 15 4; (* 204 *)
    z_ternlog 210 11 10 0; (* 206 *)
    z_permq 6 13 12; (* 207 *)
    z_ternlog 210 6 12 1; (* 208 *)
    z_permq 7 15 5; (* 209 *)
    z_permq 7 14 7; (* 210 *)
    z_ternlog 210 7 5 2; (* 211 *)
    z_permq 8 16 6; (* 212 *)
    z_ternlog 210 6 8 3; (* 213 *)
    z_permq 9 14 5; (* 214 *)
    z_permq 9 13 9; (* 215 *)
    z_ternlog 210 9 5 4; (* 216 *)
    x_dec 0 (* 217 *)
  ].

(** permute(A), detail/keccak/keccak_avx512_impl.hpp:82-255.  [rs] holds the general and mask registers and [vs] what
    zmm5-zmm12 hold before. *)
Definition avx512_start (lanes : list (list (option nat))) (rs : list cval) (vs : list (list cval)) (st : list N) : c_machine :=
  c_state rs
    (map (map (fun l => match l with Some i => CW (nth i st 0) | None => CW 0 end)) lanes ++ firstn 8 vs ++
     map (map CW) avx512_tables) [map CW avx512_round_constants].

Definition avx512_exec (fuel : nat) (lanes : list (list (option nat))) (rs : list cval) (vs : list (list cval)) (st : list N) : option c_machine :=
  match c_run avx512_prologue (avx512_start lanes rs vs st) with
  | Some m => c_loop fuel 0 avx512_body m
  | None => None
  end.

(** The state array afterwards. *)
Definition avx512_read (m : c_machine) : option (list N) :=
  words_of (map (fun p => nth (snd p) (nth (fst p) (vregs concrete m) []) (CP 0 0)) avx512_outputs).

Definition avx512_permute (fuel : nat) (rs : list cval) (vs : list (list cval)) (st : list N) : option (list N) :=
  match avx512_exec fuel avx512_lanes rs vs st with
  | Some m => avx512_read m
  | None => None
  end.
