(** Collisions of the published Merkle-Damgard hashes: proofs for C79. *)
From Coq Require Import NArith Arith List Bool Lia ZifyBool ZifyNat ZifyN ZArith.
From Verif Require Import SpecStream LStream SpecWords LWords SpecMD SpecMDOctets LAcc LMD LMDProps LMDStmt LGen LMDOctets.
From Verif Require Import MPack MAcc MConstr SpecSha SpecRipemd SpecTiger SpecTigerTables SpecExtend LExtend SpecCollide.
From Verif Require MSha MRipemd MTiger LSha LRipemd LTiger LTigerStmt PSha PRipemd PTiger.
Import ListNotations.
Ltac Zify.zify_post_hook ::= Z.div_mod_to_equations.

Ltac dm w := intros s b [L F] _; unfold davies_meyer32, sha256_compress, sha512_compress; apply (feed_ok w); [exact L|].

Section Octets.
Context (h : published).
Notation e := (if big h then BOBB else LOBB).
Notation n := (word h).
Notation bw := (block h).
Context (Hn : 0 < n) (Hbw : 0 < bw) (Hlo : 8 <= len_field h <= n * bw) (mkb : list bool)
  (Hpad : forall os, octets_bits (padded (big h) n bw (len_field h) (mark h) os) =
                     md_pad e (8 * n * bw) (8 * len_field h) mkb (octets_bits os)) (Hm : fits 8 (mark h)).

Lemma blocks_bits os : Forall (fits 8) os ->
  map (words_of_stream e (8 * n)) (chunks (8 * n * bw) (md_pad e (8 * n * bw) (8 * len_field h) mkb (octets_bits os))) = message_blocks h os.
Proof.
  intros F. unfold message_blocks. rewrite <- Hpad.
  set (P := padded (big h) n bw (len_field h) (mark h) os).
  assert (FP : Forall (fits 8) P) by now apply padded_fits.
  rewrite <- Nat.mul_assoc, chunks_octets by nia. rewrite map_map.
  apply map_ext_in. intros c Hc. apply to_words_stream; auto.
  unfold chunks in Hc. pose proof (chunk_fits (n * bw) (length P / (n * bw)) P FP) as K.
  rewrite Forall_forall in K. auto.
Qed.

Lemma state_collision os os' : Forall (fits 8) os -> Forall (fits 8) os' ->
  (N.of_nat (8 * length os) < 2 ^ 64)%N -> (N.of_nat (8 * length os') < 2 ^ 64)%N -> os <> os' ->
  final_state h os = final_state h os' -> collision_among (compress h) (calls h os) (calls h os').
Proof.
  intros F F' L L' Hne E. unfold calls. rewrite <- !blocks_bits by assumption.
  apply (md_collision e (8 * n) bw (8 * len_field h) mkb (init h) (compress h) (octets_bits os) (octets_bits os')).
  - rewrite Nat.mul_comm. apply Nat.mod_mul. lia.
  - lia.
  - exact Hbw.
  - rewrite Nat.mul_comm. apply Nat.mod_mul. lia.
  - nia.
  - unfold short, blen. now rewrite octets_bits_length.
  - unfold short, blen. now rewrite octets_bits_length.
  - intros X. now apply Hne, octets_bits_inj.
  - unfold md_chain. rewrite !blocks_bits by assumption. exact E.
Qed.

Context (k : nat) (Hk : out h <= n * k).
Notation okS := (fun s : list N => length s = k /\ Forall (fits (8 * n)) s).
Context (Hinit : okS (init h)).
Context (Hcomp : forall s b, okS s -> length b = bw /\ Forall (fits (8 * n)) b -> okS (compress h s b)).
Lemma final_ok os : Forall (fits 8) os -> okS (final_state h os).
Proof.
  intros F. unfold final_state, message_blocks. apply (fold_ok (big h) n bw Hn Hbw k); auto. now apply padded_fits.
Qed.
Definition collides : Prop := forall os os', Forall (fits 8) os -> Forall (fits 8) os' ->
  (N.of_nat (8 * length os) < 2 ^ 64)%N -> (N.of_nat (8 * length os') < 2 ^ 64)%N -> os <> os' ->
  output h (final_state h os) = output h (final_state h os') ->
  collision_among (compress h) (calls h os) (calls h os') \/
  final_state h os <> final_state h os' /\ out h < n * length (init h).
Lemma digest_collision : collides.
Proof.
  intros os os' F F' L L' Hne E.
  destruct (list_eq_dec N.eq_dec (final_state h os) (final_state h os')) as [Es|Es]; [left; now apply state_collision|].
  right. split; [exact Es|].
  destruct (final_ok os F) as [L1 F1]. destruct (final_ok os' F') as [L2 F2]. destruct Hinit as [L0 _]. rewrite L0.
  destruct (Nat.eq_dec (out h) (n * k)) as [Eo|Eo]; [|lia].
  exfalso. apply Es. unfold output in E.
  rewrite !firstn_all2 in E by (rewrite (to_octets_length (big h) n bw Hn Hbw), ?L1, ?L2; lia).
  rewrite <- (to_words_octets (big h) n bw Hn Hbw (final_state h os)), <- (to_words_octets (big h) n bw Hn Hbw (final_state h os')) by assumption.
  now rewrite E.
Qed.
End Octets.

(** What the property says of one hash. *)
Definition good (inj : injector) (C : construction) (h : published) : Prop :=
  injector_contract (c_endian C) (c_word C) (c_words C) inj -> forall junk os, block_ok (c_word C) (c_words C) junk ->
  Forall (fits 8) os -> (N.of_nat (8 * length os) < 2 ^ 64)%N ->
  hash_once C inj 8 junk os = Some (output h (final_state h os)).

Ltac setup m k := split;
  [apply (fun a b c d e f g i => digest_collision (Build_published _ _ _ _ _ _ _ _) a b c m d e k f g i);
   cbn [big word block len_field mark init compress out];
   [lia|lia|lia|intros; first [apply padded_one | apply padded_tiger]; lia|reflexivity|lia|split; [reflexivity|apply LSha.all_fit; reflexivity]|]|].
Theorem implements_good inj C h : implements inj C h -> collides h /\ good inj C h.
Proof.
  intros H; destruct H as [cipher HC|cipher HC|cipher HC|cipher HC|cipher HC|cipher HC|cipher HC|cipher HC| | | | |p C HT]; unfold dm, rmd.
  - setup one_marker 4. { dm 32%N. now apply LSha.md4_steps_length. }
    intros HI junk os HJ HF HL. exact (PSha.C58_md4 cipher inj junk os HC HI HJ HF HL).
  - setup one_marker 4. { dm 32%N. now apply LSha.md5_steps_length. }
    intros HI junk os HJ HF HL. exact (PSha.C58_md5 cipher inj junk os HC HI HJ HF HL).
  - setup one_marker 5. { dm 32%N. now apply LSha.sha1_steps_length. }
    intros HI junk os HJ HF HL. exact (PSha.C58_sha cipher inj junk os HC HI HJ HF HL).
  - setup one_marker 5. { dm 32%N. now apply LSha.sha1_steps_length. }
    intros HI junk os HJ HF HL. exact (PSha.C58_sha1 cipher inj junk os HC HI HJ HF HL).
  - setup one_marker 8. { dm 32%N. now apply LSha.sha2_steps_length. }
    intros HI junk os HJ HF HL. exact (PSha.C58_sha224 cipher inj junk os HC HI HJ HF HL).
  - setup one_marker 8. { dm 32%N. now apply LSha.sha2_steps_length. }
    intros HI junk os HJ HF HL. exact (PSha.C58_sha256 cipher inj junk os HC HI HJ HF HL).
  - setup one_marker 8. { dm 64%N. now apply LSha.sha2_steps_length. }
    intros HI junk os HJ HF HL. exact (PSha.C58_sha384 cipher inj junk os HC HI HJ HF HL).
  - setup one_marker 8. { dm 64%N. now apply LSha.sha2_steps_length. }
    intros HI junk os HJ HF HL. exact (PSha.C58_sha512 cipher inj junk os HC HI HJ HF HL).
  - setup one_marker 4. { intros s b Hs _. destruct (LRipemd.process128 s b Hs) as [<- K]. exact K. }
    intros HI junk os HJ HF HL. exact (PRipemd.C22_ripemd128_digest inj junk os HI HJ HF HL).
  - setup one_marker 5. { intros s b Hs _. destruct (LRipemd.process160 s b Hs) as [<- K]. exact K. }
    intros HI junk os HJ HF HL. exact (PRipemd.C22_ripemd160_digest inj junk os HI HJ HF HL).
  - setup one_marker 8. { intros s b Hs _. destruct (LRipemd.process256 s b Hs) as [<- K]. exact K. }
    intros HI junk os HJ HF HL. exact (PRipemd.C22_ripemd256_digest inj junk os HI HJ HF HL).
  - setup one_marker 10. { intros s b Hs _. destruct (LRipemd.process320 s b Hs) as [<- K]. exact K. }
    intros HI junk os HJ HF HL. exact (PRipemd.C22_ripemd320_digest inj junk os HI HJ HF HL).
  - assert (EC : c_endian C = LOBB /\ c_word C = 64 /\ c_words C = 8).
    { clear - HT. unfold MTiger.tiger in HT. destruct (MTiger.tiger_iv 192); [|discriminate HT].
      cbn [option_map] in HT. injection HT as <-. repeat split. }
    destruct EC as (E1 & E2 & E3).
    setup tiger_marker 3. { intros s b Hs Hb. destruct (LTiger.process_spec p s b Hs Hb) as [<- K]. exact K. }
    unfold good. rewrite E1, E2, E3. intros HI junk os HJ HF HL.
    destruct (PTiger.C11_tiger_digest p inj junk os HI HJ HF HL) as (C' & T1 & T2).
    rewrite HT in T1. injection T1 as <-. exact T2.
Qed.

Theorem collision_reduces inj C h : implements inj C h -> injector_contract (c_endian C) (c_word C) (c_words C) inj ->
  forall junk junk' os os' d, block_ok (c_word C) (c_words C) junk -> block_ok (c_word C) (c_words C) junk' ->
  Forall (fits 8) os -> Forall (fits 8) os' -> (N.of_nat (8 * length os) < 2 ^ 64)%N -> (N.of_nat (8 * length os') < 2 ^ 64)%N ->
  os <> os' -> hash_once C inj 8 junk os = Some d -> hash_once C inj 8 junk' os' = Some d ->
  collision_among (compress h) (calls h os) (calls h os') \/
  final_state h os <> final_state h os' /\ output h (final_state h os) = output h (final_state h os') /\
  out h < word h * length (init h).
Proof.
  intros HI Hinj junk junk' os os' d HJ HJ' F F' L L' Hne E E'.
  destruct (implements_good _ _ _ HI) as [K G].
  rewrite (G Hinj junk os HJ F L) in E. rewrite (G Hinj junk' os' HJ' F' L') in E'.
  assert (EE : output h (final_state h os) = output h (final_state h os')) by congruence.
  destruct (K os os' F F' L L' Hne EE) as [X|[X Y]]; auto.
Qed.
Theorem collision_full inj C h : implements inj C h -> injector_contract (c_endian C) (c_word C) (c_words C) inj ->
  forall junk junk' os os' d, block_ok (c_word C) (c_words C) junk -> block_ok (c_word C) (c_words C) junk' ->
  Forall (fits 8) os -> Forall (fits 8) os' -> (N.of_nat (8 * length os) < 2 ^ 64)%N -> (N.of_nat (8 * length os') < 2 ^ 64)%N ->
  os <> os' -> hash_once C inj 8 junk os = Some d -> hash_once C inj 8 junk' os' = Some d ->
  (forall cipher, C <> MSha.sha2_224 cipher inj) -> (forall cipher, C <> MSha.sha2_384 cipher inj) ->
  collision_among (compress h) (calls h os) (calls h os').
Proof.
  intros HI Hinj junk junk' os os' d HJ HJ' F F' L L' Hne E E' N1 N2.
  destruct (collision_reduces inj C h HI Hinj junk junk' os os' d HJ HJ' F F' L L' Hne E E') as [X|(_ & _ & X)]; [exact X|].
  exfalso. clear - HI N1 N2 X. revert X. apply Nat.nlt_ge.
  destruct HI; cbn [dm rmd out word init length app firstn];
  try (exfalso; eapply N1; reflexivity); try (exfalso; eapply N2; reflexivity); apply Nat.leb_le; reflexivity.
Qed.
