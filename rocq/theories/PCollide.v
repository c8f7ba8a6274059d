(** * Property C79: a collision of digests is a collision of the published compression function

    Specification: SpecCollide.v, SpecMD.v, SpecMDOctets.v, SpecSha.v, SpecRipemd.v, SpecTiger.v.  Model: MAcc.v, MConstr.v,
    MSha.v, MRipemd.v, MTiger.v. *)
From Coq Require Import NArith Arith List Bool.
From Verif Require Import SpecStream SpecWords SpecMD MPack MAcc MConstr SpecSha SpecTigerTables SpecCollide.
From Verif Require MSha MTiger LCollide LInj LSha.
Import ListNotations.

(** C79: take MD4, MD5, SHA, SHA-1, a SHA-2, a RIPEMD or Tiger/192, whatever the caches held, and two different messages with
    one digest.  Then two different calls of the published compression function, one made for each message, have one result;
    or the digest is shorter than the state and the two final states differ in what is cut off. *)
Theorem C79_collision : forall inj C h, implements inj C h -> injector_contract (c_endian C) (c_word C) (c_words C) inj ->
  forall junk junk' os os' d, block_ok (c_word C) (c_words C) junk -> block_ok (c_word C) (c_words C) junk' ->
  Forall (fits 8) os -> Forall (fits 8) os' -> (N.of_nat (8 * length os) < 2 ^ 64)%N -> (N.of_nat (8 * length os') < 2 ^ 64)%N ->
  os <> os' -> hash_once C inj 8 junk os = Some d -> hash_once C inj 8 junk' os' = Some d ->
  collision_among (compress h) (calls h os) (calls h os') \/
  final_state h os <> final_state h os' /\ output h (final_state h os) = output h (final_state h os') /\
  out h < word h * length (init h).
Proof. exact LCollide.collision_reduces. Qed.
Print Assumptions C79_collision.
(** Only SHA-224 and SHA-384 leave the second case open. *)
Theorem C79_full_state : forall inj C h, implements inj C h -> injector_contract (c_endian C) (c_word C) (c_words C) inj ->
  forall junk junk' os os' d, block_ok (c_word C) (c_words C) junk -> block_ok (c_word C) (c_words C) junk' ->
  Forall (fits 8) os -> Forall (fits 8) os' -> (N.of_nat (8 * length os) < 2 ^ 64)%N -> (N.of_nat (8 * length os') < 2 ^ 64)%N ->
  os <> os' -> hash_once C inj 8 junk os = Some d -> hash_once C inj 8 junk' os' = Some d ->
  (forall cipher, C <> MSha.sha2_224 cipher inj) -> (forall cipher, C <> MSha.sha2_384 cipher inj) ->
  collision_among (compress h) (calls h os) (calls h os').
Proof. exact LCollide.collision_full. Qed.
Print Assumptions C79_full_state.

(** Hypotheses met: the collision of MD4 published by Wang, Feng, Lai and Yu in 2004, run through the model, and the calls the
    theorem speaks of: the first ones, with the initial value and two different blocks. *)
Definition wang : list N :=
    [0x83; 0x9c; 0x7a; 0x4d; 0x7a; 0x92; 0xcb; 0x56; 0x78; 0xa5; 0xd5; 0xb9; 0xee; 0xa5; 0xa7; 0x57; 0x3c; 0x8a; 0x74; 0xde;
    0xb3; 0x66; 0xc3; 0xdc; 0x20; 0xa0; 0x83; 0xb6; 0x9f; 0x5d; 0x2a; 0x3b; 0xb3; 0x71; 0x9d; 0xc6; 0x98; 0x91; 0xe9; 0xf9;
    0x5e; 0x80; 0x9f; 0xd7; 0xe8; 0xb2; 0x3b; 0xa6; 0x31; 0x8e; 0xdd; 0x45; 0xe5; 0x1f; 0xe3; 0x97; 0x08; 0xbf; 0x94; 0x27;
    0xe9; 0xc3; 0xe8; 0xb9]%N.
Definition wang' : list N :=
    [0x83; 0x9c; 0x7a; 0x4d; 0x7a; 0x92; 0xcb; 0xd6; 0x78; 0xa5; 0xd5; 0x29; 0xee; 0xa5; 0xa7; 0x57; 0x3c; 0x8a; 0x74; 0xde;
    0xb3; 0x66; 0xc3; 0xdc; 0x20; 0xa0; 0x83; 0xb6; 0x9f; 0x5d; 0x2a; 0x3b; 0xb3; 0x71; 0x9d; 0xc6; 0x98; 0x91; 0xe9; 0xf9;
    0x5e; 0x80; 0x9f; 0xd7; 0xe8; 0xb2; 0x3b; 0xa6; 0x31; 0x8e; 0xdc; 0x45; 0xe5; 0x1f; 0xe3; 0x97; 0x08; 0xbf; 0x94; 0x27;
    0xe9; 0xc3; 0xe8; 0xb9]%N.
Example C79_hypotheses :
  let inj := inj_keep LOBB 32 16 in
  let C := MSha.md4 md4_steps inj in
  let h := dm false md4_H0 md4_steps 16 in
  implements inj C h /\ injector_contract LOBB 32 16 inj /\ block_ok 32 16 (repeat 7%N 16) /\ block_ok 32 16 (repeat 0%N 16) /\
  Forall (fits 8) wang /\ Forall (fits 8) wang' /\ wang <> wang' /\
  hash_once C inj 8 (repeat 7%N 16) wang =
    Some [0x4d; 0x7e; 0x6a; 0x1d; 0xef; 0xa9; 0x3d; 0x2d; 0xde; 0x05; 0xb4; 0x5d; 0x86; 0x4c; 0x42; 0x9b]%N /\
  hash_once C inj 8 (repeat 0%N 16) wang' = hash_once C inj 8 (repeat 7%N 16) wang /\
  length (calls h wang) = 2 /\ hd ([], []) (calls h wang) <> hd ([], []) (calls h wang') /\
  (let (s, b) := hd ([], []) (calls h wang) in compress h s b) = (let (s, b) := hd ([], []) (calls h wang') in compress h s b).
Proof.
  cbv zeta. split; [apply I_md4; intros key text _ _ _ _; reflexivity|]. split; [apply LInj.inj_keep_contract; [reflexivity|apply Nat.lt_0_succ]|].
  split; [split; [reflexivity|apply LSha.all_fit; reflexivity]|]. split; [split; [reflexivity|apply LSha.all_fit; reflexivity]|].
  split; [apply LSha.all_fit; vm_compute; reflexivity|]. split; [apply LSha.all_fit; vm_compute; reflexivity|].
  split; [discriminate|]. split; [vm_compute; reflexivity|]. split; [vm_compute; reflexivity|]. split; [vm_compute; reflexivity|].
  split; [|vm_compute; reflexivity]. vm_compute. discriminate.
Qed.
