(** * Model of the suites and default parameters of h2f and h2c

    include/nil/crypto3/hash/h2f.hpp, h2c.hpp, detail/h2f/h2f_suites.hpp, detail/h2c/h2c_policy.hpp.  The hash is
    sha2<256> (MSha.v); arity (1 or 2) and modulus of the field are crypto3-algebra's, written out. *)
From Coq Require Import ZArith NArith Arith List Bool String Ascii.
From Verif Require Import SpecStream MPack MAcc MXmd MSha SpecPoseidon SpecH2C MH2C.
Import ListNotations.
Local Open Scope list_scope.

(** detail/h2c/h2c_policy.hpp:32: UniformityCount, as the number h2f.hpp:83 makes of it. *)
Inductive uniformity := nonuniform_count | uniform_count.
Definition count_of (u : uniformity) : nat := match u with nonuniform_count => 1 | uniform_count => 2 end.

(** detail/h2f/h2f_suites.hpp:41-77: suite_id, m, k, L. *)
Record h2f_suite := { suite_id : list N; suite_m : nat; suite_k : nat; suite_L : nat }.
Definition h2f_suite_g1 : h2f_suite := {|
  suite_id := [66; 76; 83; 49; 50; 51; 56; 49; 71; 49; 95; 88; 77; 68; 58; 83; 72; 65; 45; 50; 53; 54; 95; 83; 83; 87; 85; 95; 82; 79; 95]%N;
  suite_m := 1; suite_k := 128; suite_L := 64 |}.
Definition h2f_suite_g2 : h2f_suite := {|
  suite_id := [0x42; 0x4c; 0x53; 0x31; 0x32; 0x33; 0x38; 0x31; 0x47; 0x32; 0x5f; 0x58; 0x4d; 0x44; 0x3a; 0x53;
               0x48; 0x41; 0x2d; 0x32; 0x35; 0x36; 0x5f; 0x53; 0x53; 0x57; 0x55; 0x5f; 0x52; 0x4f; 0x5f]%N;
  suite_m := 2; suite_k := 128; suite_L := 64 |}.
(** h2f.hpp:49-56, h2c.hpp:49-56: the default parameters' dst: the octets of the string, then suite_id. *)
Definition default_dst (S : h2f_suite) : list N :=
  map N_of_ascii (list_ascii_of_string "QUUX-V01-CS02-with-") ++ suite_id S.

(** h2f.hpp:83-92 with MXmd.v's assertions of expand_message_xmd: what the compiler checks.  sha2<256>'s digest_bits
    is 256. *)
Definition h2f_compiles (S : h2f_suite) (u : uniformity) : bool :=
  ((count_of u =? 1) || (count_of u =? 2)) && accepted 32 (suite_k S) (count_of u * suite_m S * suite_L S).

Section Run.
Context (cipher : list N -> list N -> list N) (inj : injector).
(** An accumulator of h2f with default parameters. *)
Definition h2f_default (S : h2f_suite) (u : uniformity) (a : acc (sha2_256 cipher inj)) (ops : list xop) : option (list (list (list N))) :=
  h2f_run (sha2_256 cipher inj) inj 32 (Z.to_N bls12_381_q) (suite_m S) (suite_L S) (count_of u) (default_dst S) a ops.
(** Accumulators of h2c for G1 and G2 with default parameters: ep_map (h2c_functions.hpp:343-351) exists for
    uniform_count only. *)
Definition h2c_default_g1 {G} inversed is_square sqrt is_zero (point : Fq -> Fq -> G) group_one gadd gmul
    (a : acc (sha2_256 cipher inj)) (ops : list xop) : option (list G) :=
  h2c_run (sha2_256 cipher inj) inj 32 elem1
    (ep_map gadd gmul (map_to_curve_g1 inversed is_square sqrt is_zero point group_one) g1_h_eff)
    (Z.to_N bls12_381_q) (suite_m h2f_suite_g1) (suite_L h2f_suite_g1) (count_of uniform_count) (default_dst h2f_suite_g1) a ops.
Definition h2c_default_g2 {G} inversed is_square sqrt is_zero (point : Fq2 -> Fq2 -> G) group_one gadd gmul
    (a : acc (sha2_256 cipher inj)) (ops : list xop) : option (list G) :=
  h2c_run (sha2_256 cipher inj) inj 32 elem2
    (ep_map gadd gmul (map_to_curve_g2 inversed is_square sqrt is_zero point group_one) g2_h_eff)
    (Z.to_N bls12_381_q) (suite_m h2f_suite_g2) (suite_L h2f_suite_g2) (count_of uniform_count) (default_dst h2f_suite_g2) a ops.
End Run.
