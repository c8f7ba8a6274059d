(** * Model of MD4, MD5, SHA, SHA-1 and SHA-2

    They are merkle_damgard_construction with davies_meyer_compressor over a block cipher of crypto3-block, which is
    not in this repository: [cipher key text] is BlockCipher(key).encrypt(text).  The word, block and key sizes the
    policies take from the cipher are written out: words of 32 bits (64 for shacal2<512>), keys of 16 words. *)
From Coq Require Import NArith Arith List Bool.
From Verif Require Import SpecStream MPack MAcc MConstr MMisc.
Import ListNotations.
Local Open Scope N_scope.

(** detail/md4/md4_policy.hpp:58-63 and detail/md5/md5_policy.hpp:67-73. *)
Definition md4_iv : list N := [0x67452301; 0xefcdab89; 0x98badcfe; 0x10325476].
Definition md5_iv : list N := [0x67452301; 0xefcdab89; 0x98badcfe; 0x10325476].
(** detail/sha/sha_policy.hpp:64-70 and detail/sha1/sha1_policy.hpp:64-70. *)
Definition sha_iv : list N := [0x67452301; 0xefcdab89; 0x98badcfe; 0x10325476; 0xc3d2e1f0].
Definition sha1_iv : list N := [0x67452301; 0xefcdab89; 0x98badcfe; 0x10325476; 0xc3d2e1f0].
(** detail/sha2/sha2_policy.hpp:81-87. *)
Definition sha2_224_iv : list N :=
  [0xc1059ed8; 0x367cd507; 0x3070dd17; 0xf70e5939; 0xffc00b31; 0x68581511; 0x64f98fa7; 0xbefa4fa4].
(** detail/sha2/sha2_policy.hpp:106-112. *)
Definition sha2_256_iv : list N :=
  [0x6a09e667; 0xbb67ae85; 0x3c6ef372; 0xa54ff53a; 0x510e527f; 0x9b05688c; 0x1f83d9ab; 0x5be0cd19].
(** detail/sha2/sha2_policy.hpp:129-137. *)
Definition sha2_384_iv : list N :=
  [0xcbbb9d5dc1059ed8; 0x629a292a367cd507; 0x9159015a3070dd17; 0x152fecd8f70e5939;
   0x67332667ffc00b31; 0x8eb44a8768581511; 0xdb0c2e0d64f98fa7; 0x47b5481dbefa4fa4].
(** detail/sha2/sha2_policy.hpp:155-163. *)
Definition sha2_512_iv : list N :=
  [0x6a09e667f3bcc908; 0xbb67ae8584caa73b; 0x3c6ef372fe94f82b; 0xa54ff53a5f1d36f1;
   0x510e527fade682d1; 0x9b05688c2b3e6c1f; 0x1f83d9abfb41bd6b; 0x5be0cd19137e2179].

(** The construction all of them name: detail/merkle_damgard_construction.hpp with length_bits = 2 * word_bits,
    [dw] = digest_bits / word_bits and davies_meyer_compressor<cipher, state_adder>. *)
Definition dm_hash (e : endian) (w dw : nat) (iv : list N) (cipher : list N -> list N -> list N) (inj : injector) : construction :=
  md_construction e w 16 (w * 2) dw iv (davies_meyer cipher (state_adder w)) (merkle_damgard_padding inj e w 16).
(** md4.hpp:61-73, detail/md4/md4_policy.hpp:37-55; md5.hpp:67-79, detail/md5/md5_policy.hpp:38-56. *)
Definition md4 := dm_hash LOBB 32 4 md4_iv.
Definition md5 := dm_hash LOBB 32 4 md5_iv.
(** sha.hpp:61-73, detail/sha/sha_policy.hpp:37-55; sha1.hpp:61-73, detail/sha1/sha1_policy.hpp:36-54. *)
Definition sha := dm_hash BOBB 32 5 sha_iv.
Definition sha1 := dm_hash BOBB 32 5 sha1_iv.
(** sha2.hpp:87-99, detail/sha2/sha2_policy.hpp:41-62, 68-70, 91-93, 116-118, 141-143. *)
Definition sha2_224 := dm_hash BOBB 32 7 sha2_224_iv.
Definition sha2_256 := dm_hash BOBB 32 8 sha2_256_iv.
Definition sha2_384 := dm_hash BOBB 64 6 sha2_384_iv.
Definition sha2_512 := dm_hash BOBB 64 8 sha2_512_iv.
