(** * The x86-64 assembly of Keccak-f[1600]

    Generated by tools/asm_keccak.py from detail/keccak/keccak_x86_64_impl.hpp; each instruction carries the line it is on. *)
From Coq Require Import NArith ZArith List.
From Verif Require Import MAsm.
Import ListNotations.
Local Open Scope N_scope.

(** Registers: 8-15 are r8-r15; 16, 17, 18 and 19 are the registers the compiler chooses for the
    operands [A], [C], [B] and [c] of lines 400-405.  They are distinct from r8-r13 and r15, which
    are in the clobber list, and from each other; the pointers are objects 0 (A), 1 (C), 2 (B) and
    3 (round_constants). *)
(** detail/keccak/keccak_x86_64_impl.hpp:48-56 *)
Definition x86_round_constants : list N :=
  [0x0000000000000001;
   0x0000000000008082;
   0x800000000000808a;
   0x8000000080008000;
   0x000000000000808b;
   0x0000000080000001;
   0x8000000080008081;
   0x8000000000008009;
   0x000000000000008a;
   0x0000000000000088;
   0x0000000080008009;
   0x000000008000000a;
   0x000000008000808b;
   0x800000000000008b;
   0x8000000000008089;
   0x8000000000008003;
   0x8000000000008002;
   0x8000000000000080;
   0x000000000000800a;
   0x800000008000000a;
   0x8000000080008081;
   0x8000000000008080;
   0x0000000080000001;
   0x8000000080008008].

(** detail/keccak/keccak_x86_64_impl.hpp: before the label 1 *)
Definition x86_prologue : list instr :=
  [
    x_mov_i 24 13 (* 61 *)
  ].

(** detail/keccak/keccak_x86_64_impl.hpp: from the label 1 to the [dec] before "jnz 1b" (line 399) *)
Definition x86_body : list instr :=
  [
    x_mov_l 0 16 15; (* 64 *)
    x_xor_l 40 16 15; (* 65 *)
    x_xor_l 80 16 15; (* 66 *)
    x_xor_l 120 16 15; (* 67 *)
    x_xor_l 160 16 15; (* 68 *)
    x_mov_s 15 0 17; (* 69 *)
    x_mov 15 8; (* 70 *)
    x_mov_l 8 16 15; (* 72 *)
    x_xor_l 48 16 15; (* 73 *)
    x_xor_l 88 16 15; (* 74 *)
    x_xor_l 128 16 15; (* 75 *)
    x_xor_l 168 16 15; (* 76 *)
    x_mov_s 15 8 17; (* 77 *)
    x_mov 15 9; (* 78 *)
    x_mov_l 16 16 15; (* 80 *)
    x_xor_l 56 16 15; (* 81 *)
    x_xor_l 96 16 15; (* 82 *)
    x_xor_l 136 16 15; (* 83 *)
    x_xor_l 176 16 15; (* 84 *)
    x_mov_s 15 16 17; (* 85 *)
    x_mov 15 10; (* 86 *)
    x_mov_l 24 16 15; (* 88 *)
    x_xor_l 64 16 15; (* 89 *)
    x_xor_l 104 16 15; (* 90 *)
    x_xor_l 144 16 15; (* 91 *)
    x_xor_l 184 16 15; (* 92 *)
    x_mov_s 15 24 17; (* 93 *)
    x_mov 15 11; (* 94 *)
    x_mov_l 32 16 15; (* 96 *)
    x_xor_l 72 16 15; (* 97 *)
    x_xor_l 112 16 15; (* 98 *)
    x_xor_l 152 16 15; (* 99 *)
    x_xor_l 192 16 15; (* 100 *)
    x_mov_s 15 32 17; (* 101 *)
    x_mov 15 12; (* 102 *)
    x_rol 1 8; (* 104 *)
    x_xor_l 24 17 8; (* 105 *)
    x_rol 1 9; (* 106 *)
    x_xor_l 32 17 9; (* 107 *)
    x_rol 1 10; (* 108 *)
    x_xor_l 0 17 10; (* 109 *)
    x_rol 1 11; (* 110 *)
    x_xor_l 8 17 11; (* 111 *)
    x_rol 1 12; (* 112 *)
    x_xor_l 16 17 12; (* 113 *)
    x_mov_l 0 16 15; (* 115 *)
    x_xor 9 15; (* 116 *)
    x_rol 0 15; (* 117 *)
    x_mov_s 15 0 18; (* 118 *)
    x_mov_l 8 16 15; (* 120 *)
    x_xor 10 15; (* 121 *)
    x_rol 1 15; (* 122 *)
    x_mov_s 15 80 18; (* 123 *)
    x_mov_l 16 16 15; (* 125 *)
    x_xor 11 15; (* 126 *)
    x_rol 62 15; (* 127 *)
    x_mov_s 15 160 18; (* 128 *)
    x_mov_l 24 16 15; (* 130 *)
    x_xor 12 15; (* 131 *)
    x_rol 28 15; (* 132 *)
    x_mov_s 15 40 18; (* 133 *)
    x_mov_l 32 16 15; (* 135 *)
    x_xor 8 15; (* 136 *)
    x_rol 27 15; (* 137 *)
    x_mov_s 15 120 18; (* 138 *)
    x_mov_l 40 16 15; (* 141 *)
    x_xor 9 15; (* 142 *)
    x_rol 36 15; (* 143 *)
    x_mov_s 15 128 18; (* 144 *)
    x_mov_l 48 16 15; (* 146 *)
    x_xor 10 15; (* 147 *)
    x_rol 44 15; (* 148 *)
    x_mov_s 15 8 18; (* 149 *)
    x_mov_l 56 16 15; (* 151 *)
    x_xor 11 15; (* 152 *)
    x_rol 6 15; (* 153 *)
    x_mov_s 15 88 18; (* 154 *)
    x_mov_l 64 16 15; (* 156 *)
    x_xor 12 15; (* 157 *)
    x_rol 55 15; (* 158 *)
    x_mov_s 15 168 18; (* 159 *)
    x_mov_l 72 16 15; (* 161 *)
    x_xor 8 15; (* 162 *)
    x_rol 20 15; (* 163 *)
    x_mov_s 15 48 18; (* 164 *)
    x_mov_l 80 16 15; (* 167 *)
    x_xor 9 15; (* 168 *)
    x_rol 3 15; (* 169 *)
    x_mov_s 15 56 18; (* 170 *)
    x_mov_l 88 16 15; (* 172 *)
    x_xor 10 15; (* 173 *)
    x_rol 10 15; (* 174 *)
    x_mov_s 15 136 18; (* 175 *)
    x_mov_l 96 16 15; (* 177 *)
    x_xor 11 15; (* 178 *)
    x_rol 43 15; (* 179 *)
    x_mov_s 15 16 18; (* 180 *)
    x_mov_l 104 16 15; (* 182 *)
    x_xor 12 15; (* 183 *)
    x_rol 25 15; (* 184 *)
    x_mov_s 15 96 18; (* 185 *)
    x_mov_l 112 16 15; (* 187 *)
    x_xor 8 15; (* 188 *)
    x_rol 39 15; (* 189 *)
    x_mov_s 15 176 18; (* 190 *)
    x_mov_l 120 16 15; (* 193 *)
    x_xor 9 15; (* 194 *)
    x_rol 41 15; (* 195 *)
    x_mov_s 15 184 18; (* 196 *)
    x_mov_l 128 16 15; (* 198 *)
    x_xor 10 15; (* 199 *)
    x_rol 45 15; (* 200 *)
    x_mov_s 15 64 18; (* 201 *)
    x_mov_l 136 16 15; (* 203 *)
    x_xor 11 15; (* 204 *)
    x_rol 15 15; (* 205 *)
    x_mov_s 15 144 18; (* 206 *)
    x_mov_l 144 16 15; (* 208 *)
    x_xor 12 15; (* 209 *)
    x_rol 21 15; (* 210 *)
    x_mov_s 15 24 18; (* 211 *)
    x_mov_l 152 16 15; (* 213 *)
    x_xor 8 15; (* 214 *)
    x_rol 8 15; (* 215 *)
    x_mov_s 15 104 18; (* 216 *)
    x_mov_l 160 16 15; (* 219 *)
    x_xor 9 15; (* 220 *)
    x_rol 18 15; (* 221 *)
    x_mov_s 15 112 18; (* 222 *)
    x_mov_l 168 16 15; (* 224 *)
    x_xor 10 15; (* 225 *)
    x_rol 2 15; (* 226 *)
    x_mov_s 15 192 18; (* 227 *)
    x_mov_l 176 16 15; (* 229 *)
    x_xor 11 15; (* 230 *)
    x_rol 61 15; (* 231 *)
    x_mov_s 15 72 18; (* 232 *)
    x_mov_l 184 16 15; (* 234 *)
    x_xor 12 15; (* 235 *)
    x_rol 56 15; (* 236 *)
    x_mov_s 15 152 18; (* 237 *)
    x_mov_l 192 16 15; (* 239 *)
    x_xor 8 15; (* 240 *)
    x_rol 14 15; (* 241 *)
    x_mov_s 15 32 18; (* 242 *)
    x_mov_l 8 18 15; (* 245 *)
    x_not 15; (* 246 *)
    x_and_l 16 18 15; (* 247 *)
    x_xor_l 0 18 15; (* 248 *)
    x_xor_l 0 19 15; (* 249 *)
    x_mov_s 15 0 16; (* 250 *)
    x_mov_l 16 18 15; (* 252 *)
    x_not 15; (* 253 *)
    x_and_l 24 18 15; (* 254 *)
    x_xor_l 8 18 15; (* 255 *)
    x_mov_s 15 8 16; (* 256 *)
    x_mov_l 24 18 15; (* 258 *)
    x_not 15; (* 259 *)
    x_and_l 32 18 15; (* 260 *)
    x_xor_l 16 18 15; (* 261 *)
    x_mov_s 15 16 16; (* 262 *)
    x_mov_l 32 18 15; (* 264 *)
    x_not 15; (* 265 *)
    x_and_l 0 18 15; (* 266 *)
    x_xor_l 24 18 15; (* 267 *)
    x_mov_s 15 24 16; (* 268 *)
    x_mov_l 0 18 15; (* 270 *)
    x_not 15; (* 271 *)
    x_and_l 8 18 15; (* 272 *)
    x_xor_l 32 18 15; (* 273 *)
    x_mov_s 15 32 16; (* 274 *)
    x_mov_l 48 18 15; (* 276 *)
    x_not 15; (* 277 *)
    x_and_l 56 18 15; (* 278 *)
    x_xor_l 40 18 15; (* 279 *)
    x_mov_s 15 40 16; (* 280 *)
    x_mov_l 56 18 15; (* 282 *)
    x_not 15; (* 283 *)
    x_and_l 64 18 15; (* 284 *)
    x_xor_l 48 18 15; (* 285 *)
    x_mov_s 15 48 16; (* 286 *)
    x_mov_l 64 18 15; (* 288 *)
    x_not 15; (* 289 *)
    x_and_l 72 18 15; (* 290 *)
    x_xor_l 56 18 15; (* 291 *)
    x_mov_s 15 56 16; (* 292 *)
    x_mov_l 72 18 15; (* 294 *)
    x_not 15; (* 295 *)
    x_and_l 40 18 15; (* 296 *)
    x_xor_l 64 18 15; (* 297 *)
    x_mov_s 15 64 16; (* 298 *)
    x_mov_l 40 18 15; (* 300 *)
    x_not 15; (* 301 *)
    x_and_l 48 18 15; (* 302 *)
    x_xor_l 72 18 15; (* 303 *)
    x_mov_s 15 72 16; (* 304 *)
    x_mov_l 88 18 15; (* 306 *)
    x_not 15; (* 307 *)
    x_and_l 96 18 15; (* 308 *)
    x_xor_l 80 18 15; (* 309 *)
    x_mov_s 15 80 16; (* 310 *)
    x_mov_l 96 18 15; (* 312 *)
    x_not 15; (* 313 *)
    x_and_l 104 18 15; (* 314 *)
    x_xor_l 88 18 15; (* 315 *)
    x_mov_s 15 88 16; (* 316 *)
    x_mov_l 104 18 15; (* 318 *)
    x_not 15; (* 319 *)
    x_and_l 112 18 15; (* 320 *)
    x_xor_l 96 18 15; (* 321 *)
    x_mov_s 15 96 16; (* 322 *)
    x_mov_l 112 18 15; (* 324 *)
    x_not 15; (* 325 *)
    x_and_l 80 18 15; (* 326 *)
    x_xor_l 104 18 15; (* 327 *)
    x_mov_s 15 104 16; (* 328 *)
    x_mov_l 80 18 15; (* 330 *)
    x_not 15; (* 331 *)
    x_and_l 88 18 15; (* 332 *)
    x_xor_l 112 18 15; (* 333 *)
    x_mov_s 15 112 16; (* 334 *)
    x_mov_l 128 18 15; (* 336 *)
    x_not 15; (* 337 *)
    x_and_l 136 18 15; (* 338 *)
    x_xor_l 120 18 15; (* 339 *)
    x_mov_s 15 120 16; (* 340 *)
    x_mov_l 136 18 15; (* 342 *)
    x_not 15; (* 343 *)
    x_and_l 144 18 15; (* 344 *)
    x_xor_l 128 18 15; (* 345 *)
    x_mov_s 15 128 16; (* 346 *)
    x_mov_l 144 18 15; (* 348 *)
    x_not 15; (* 349 *)
    x_and_l 152 18 15; (* 350 *)
    x_xor_l 136 18 15; (* 351 *)
    x_mov_s 15 136 16; (* 352 *)
    x_mov_l 152 18 15; (* 354 *)
    x_not 15; (* 355 *)
    x_and_l 120 18 15; (* 356 *)
    x_xor_l 144 18 15; (* 357 *)
    x_mov_s 15 144 16; (* 358 *)
    x_mov_l 120 18 15; (* 360 *)
    x_not 15; (* 361 *)
    x_and_l 128 18 15; (* 362 *)
    x_xor_l 152 18 15; (* 363 *)
    x_mov_s 15 152 16; (* 364 *)
    x_mov_l 168 18 15; (* 366 *)
    x_not 15; (* 367 *)
    x_and_l 176 18 15; (* 368 *)
    x_xor_l 160 18 15; (* 369 *)
    x_mov_s 15 160 16; (* 370 *)
    x_mov_l 176 18 15; (* 372 *)
    x_not 15; (* 373 *)
    x_and_l 184 18 15; (* 374 *)
    x_xor_l 168 18 15; (* 375 *)
    x_mov_s 15 168 16; (* 376 *)
    x_mov_l 184 18 15; (* 378 *)
    x_not 15; (* 379 *)
    x_and_l 192 18 15; (* 380 *)
    x_xor_l 176 18 15; (* 381 *)
    x_mov_s 15 176 16; (* 382 *)
    x_mov_l 192 18 15; (* 384 *)
    x_not 15; (* 385 *)
    x_and_l 160 18 15; (* 386 *)
    x_xor_l 184 18 15; (* 387 *)
    x_mov_s 15 184 16; (* 388 *)
    x_mov_l 160 18 15; (* 390 *)
    x_not 15; (* 391 *)
    x_and_l 168 18 15; (* 392 *)
    x_xor_l 192 18 15; (* 393 *)
    x_mov_s 15 192 16; (* 394 *)
    x_lea 8 19 19; (* 397 *)
    x_dec 13 (* 398 *)
  ].

(** permute(A), detail/keccak/keccak_x86_64_impl.hpp:57-407: C and B are local arrays without initialiser, so their
    contents [c0] and [b0], like the contents [rs] of the registers, are whatever was there. *)
Definition x86_start (rs : list cval) (c0 b0 : list cval) (st : list N) : c_machine :=
  c_state (firstn 16 rs ++ [CP 0 0; CP 1 0; CP 2 0; CP 3 0]) []
    [map CW st; c0; b0; map CW x86_round_constants].

Definition x86_exec (fuel : nat) (rs c0 b0 : list cval) (st : list N) : option c_machine :=
  match c_run x86_prologue (x86_start rs c0 b0 st) with
  | Some m => c_loop fuel 13 x86_body m
  | None => None
  end.

(** The assembly once more, from the registers and memory [m] that a run left: two inlined calls whose
    operands the compiler keeps in the same registers. *)
Definition x86_again (fuel : nat) (m : c_machine) : option c_machine :=
  match c_run x86_prologue m with
  | Some m' => c_loop fuel 13 x86_body m'
  | None => None
  end.

(** The state array afterwards. *)
Definition x86_permute (fuel : nat) (rs c0 b0 : list cval) (st : list N) : option (list N) :=
  match x86_exec fuel rs c0 b0 st with
  | Some m => match objects concrete m with a :: _ => words_of a | [] => None end
  | None => None
  end.
