(** Length extension: proofs for C71. *)
From Coq Require Import NArith Arith List Bool Lia ZifyBool ZifyNat ZifyN ZArith.
From Verif Require Import SpecStream LStream SpecWords LWords SpecMD SpecMDOctets LMD LMDProps LMDStmt LGen LMDOctets.
From Verif Require Import MPack MAcc MConstr SpecSha SpecRipemd SpecTiger SpecTigerTables SpecExtend.
From Verif Require MSha MRipemd MTiger LSha LRipemd LTiger LTigerStmt PSha PRipemd PTiger.
Import ListNotations.
Ltac Zify.zify_post_hook ::= Z.div_mod_to_equations.

Section S.
Context (big : bool) (n bw lo : nat) (mk : N).
Context (Hn : 0 < n) (Hbw : 0 < bw) (Hm : fits 8 mk).
Notation e := (if big then BOBB else LOBB).
Lemma padded_suffix os : padded big n bw lo mk os = os ++ suffix big n bw lo mk (length os).
Proof. reflexivity. Qed.
Lemma suffix_fits len : Forall (fits 8) (suffix big n bw lo mk len).
Proof.
  pose proof (padded_fits big n bw lo mk (repeat 0%N len) Hm) as K. rewrite padded_suffix, repeat_length in K.
  assert (F : Forall (fits 8) (repeat 0%N len)) by (apply Forall_forall; intros x Hx; apply repeat_spec in Hx; subst; reflexivity).
  apply K in F. apply Forall_app in F. apply F.
Qed.
Lemma to_words_octets ws : Forall (fits (8 * n)) ws -> to_words big n (to_octets big n ws) = ws.
Proof.
  intros F. rewrite <- to_words_stream by (auto; apply to_octets_fits). rewrite to_octets_stream by auto.
  apply words_of_stream_stream; auto; lia.
Qed.
Context (k : nat) (comp : list N -> list N -> list N).
Notation okS := (fun s : list N => length s = k /\ Forall (fits (8 * n)) s).
Context (Hcomp : forall s b, okS s -> length b = bw /\ Forall (fits (8 * n)) b -> okS (comp s b)).
Lemma fold_ok P iv : Forall (fits 8) P -> okS iv -> okS (fold_left comp (map (to_words big n) (chunks (n * bw) P)) iv).
Proof.
  intros F. assert (K : Forall (fun b => length b = bw /\ Forall (fits (8 * n)) b) (map (to_words big n) (chunks (n * bw) P))).
  { apply Forall_map. pose proof (chunk_fits (n * bw) (length P / (n * bw)) P F) as K1.
    pose proof (chunks_Forall (n * bw) P ltac:(nia)) as K2. unfold chunks in *.
    rewrite Forall_forall in *. intros c Hc. apply to_words_ok; auto. }
  revert iv. induction K as [|b bs Hb K IH]; intros s Hs; cbn [fold_left]; auto.
Qed.
Lemma extend_ok iv os s : okS iv -> Forall (fits 8) os -> Forall (fits 8) s ->
  md_octets big n bw lo mk iv comp (n * k) (os ++ suffix big n bw lo mk (length os) ++ s) =
  extend big n bw lo mk comp (md_octets big n bw lo mk iv comp (n * k) os) (length os) s.
Proof.
  intros Hiv F Fs. unfold md_octets at 1, extend. rewrite padded_suffix.
  set (P := padded big n bw lo mk os).
  assert (FP : Forall (fits 8) P) by now apply padded_fits.
  assert (EP : forall t, (os ++ suffix big n bw lo mk (length os) ++ s) ++ t = P ++ (s ++ t)).
  { intros t. unfold P. now rewrite padded_suffix, <- !app_assoc. }
  rewrite EP. rewrite !app_length, Nat.add_assoc.
  set (t := suffix big n bw lo mk (length os + length (suffix big n bw lo mk (length os)) + length s)).
  rewrite chunks_app by (try nia; apply padded_length; auto).
  rewrite map_app, fold_left_app.
  pose proof (fold_ok P iv FP Hiv) as [L1 F1].
  unfold md_octets. fold P.
  rewrite (firstn_all2 (to_octets _ _ (fold_left comp (map (to_words big n) (chunks (n * bw) P)) iv))).
  2:{ rewrite (to_octets_length big n bw Hn Hbw). rewrite L1. lia. }
  rewrite to_words_octets by exact F1.
  apply firstn_all2. rewrite (to_octets_length big n bw Hn Hbw).
  assert (K : okS (fold_left comp (map (to_words big n) (chunks (n * bw) (s ++ t)))
     (fold_left comp (map (to_words big n) (chunks (n * bw) P)) iv))).
  { apply fold_ok; [apply Forall_app; split; [exact Fs|apply suffix_fits]|split; assumption]. }
  destruct K as [-> _]. lia.
Qed.
End S.

(** The premise of the property, and its conclusion. *)
Definition extends (inj : injector) (C : construction) (suf : nat -> list N) (ext : list N -> nat -> list N -> list N) : Prop :=
  forall junk junk' os s,
  injector_contract (c_endian C) (c_word C) (c_words C) inj ->
  block_ok (c_word C) (c_words C) junk -> block_ok (c_word C) (c_words C) junk' ->
  Forall (fits 8) os -> Forall (fits 8) s -> (N.of_nat (8 * length (os ++ suf (length os) ++ s)) < 2 ^ 64)%N ->
  exists d, hash_once C inj 8 junk os = Some d /\ hash_once C inj 8 junk' (os ++ suf (length os) ++ s) = Some (ext d (length os) s).

Lemma extends_md inj C big n bw lo mk k iv comp :
  0 < n -> 0 < bw -> fits 8 mk -> (length iv = k /\ Forall (fits (8 * n)) iv) ->
  (forall s b, (length s = k /\ Forall (fits (8 * n)) s) -> length b = bw /\ Forall (fits (8 * n)) b ->
     length (comp s b) = k /\ Forall (fits (8 * n)) (comp s b)) ->
  (injector_contract (c_endian C) (c_word C) (c_words C) inj -> forall junk os, block_ok (c_word C) (c_words C) junk ->
   Forall (fits 8) os -> (N.of_nat (8 * length os) < 2 ^ 64)%N ->
   hash_once C inj 8 junk os = Some (md_octets big n bw lo mk iv comp (n * k) os)) ->
  extends inj C (suffix big n bw lo mk) (extend big n bw lo mk comp).
Proof.
  intros Hn Hb Hm Hiv Hc H junk junk' os s HI HJ HJ' Fo Fs Hl.
  assert (Hl' : (N.of_nat (8 * length os) < 2 ^ 64)%N).
  { eapply N.le_lt_trans; [|exact Hl]. rewrite app_length. clear. lia. }
  exists (md_octets big n bw lo mk iv comp (n * k) os). split; [now apply H|].
  rewrite H; auto.
  - f_equal. now apply extend_ok.
  - apply Forall_app; split; [exact Fo|]. apply Forall_app; split; [now apply suffix_fits|exact Fs].
Qed.

Lemma feed_ok w k H v : length H = k -> length v = k -> length (feed_forward w H v) = k /\ Forall (fits (N.to_nat w)) (feed_forward w H v).
Proof.
  intros L1 L2. unfold feed_forward. split.
  - rewrite map_length, combine_length. lia.
  - apply Forall_map, Forall_forall. intros x _. unfold fits, add. rewrite N2Nat.id. apply N.mod_lt. now apply N.pow_nonzero.
Qed.

Ltac md k iv comp := apply (fun a b c d e f => extends_md _ _ _ _ _ _ _ k iv comp a b c d e f);
  [lia|lia|reflexivity|split; [reflexivity|apply LSha.all_fit; reflexivity]|..].
Ltac dm w := intros s b [L F] _; unfold davies_meyer32, sha256_compress, sha512_compress; apply (feed_ok w); [exact L|].
Theorem extends_all inj C suf ext : full_state_hash inj C suf ext -> extends inj C suf ext.
Proof.
  intros H; destruct H as [cipher HC|cipher HC|cipher HC|cipher HC|cipher HC|cipher HC| | | | |p C HT].
  - md 4 md4_H0 (davies_meyer32 md4_steps). { dm 32%N. now apply LSha.md4_steps_length. }
    intros HI junk os HJ HF HL. exact (PSha.C58_md4 cipher inj junk os HC HI HJ HF HL).
  - md 4 md4_H0 (davies_meyer32 md5_steps). { dm 32%N. now apply LSha.md5_steps_length. }
    intros HI junk os HJ HF HL. exact (PSha.C58_md5 cipher inj junk os HC HI HJ HF HL).
  - md 5 sha1_H0 (davies_meyer32 sha0_steps). { dm 32%N. now apply LSha.sha1_steps_length. }
    intros HI junk os HJ HF HL. exact (PSha.C58_sha cipher inj junk os HC HI HJ HF HL).
  - md 5 sha1_H0 (davies_meyer32 sha1_steps). { dm 32%N. now apply LSha.sha1_steps_length. }
    intros HI junk os HJ HF HL. exact (PSha.C58_sha1 cipher inj junk os HC HI HJ HF HL).
  - md 8 sha256_H0 sha256_compress. { dm 32%N. now apply LSha.sha2_steps_length. }
    intros HI junk os HJ HF HL. exact (PSha.C58_sha256 cipher inj junk os HC HI HJ HF HL).
  - md 8 sha512_H0 sha512_compress. { dm 64%N. now apply LSha.sha2_steps_length. }
    intros HI junk os HJ HF HL. exact (PSha.C58_sha512 cipher inj junk os HC HI HJ HF HL).
  - md 4 (firstn 4 IV5) RIPEMD128_compress.
    { intros s b Hs _. destruct (LRipemd.process128 s b Hs) as [<- K]. exact K. }
    intros HI junk os HJ HF HL. exact (PRipemd.C22_ripemd128_digest inj junk os HI HJ HF HL).
  - md 5 IV5 RIPEMD160_compress.
    { intros s b Hs _. destruct (LRipemd.process160 s b Hs) as [<- K]. exact K. }
    intros HI junk os HJ HF HL. exact (PRipemd.C22_ripemd160_digest inj junk os HI HJ HF HL).
  - md 8 (firstn 4 IV5 ++ firstn 4 IV5') RIPEMD256_compress.
    { intros s b Hs _. destruct (LRipemd.process256 s b Hs) as [<- K]. exact K. }
    intros HI junk os HJ HF HL. exact (PRipemd.C22_ripemd256_digest inj junk os HI HJ HF HL).
  - md 10 (IV5 ++ IV5') RIPEMD320_compress.
    { intros s b Hs _. destruct (LRipemd.process320 s b Hs) as [<- K]. exact K. }
    intros HI junk os HJ HF HL. exact (PRipemd.C22_ripemd320_digest inj junk os HI HJ HF HL).
  - assert (EC : c_endian C = LOBB /\ c_word C = 64 /\ c_words C = 8).
    { clear - HT. unfold MTiger.tiger in HT. destruct (MTiger.tiger_iv 192); [|discriminate HT].
      cbn [option_map] in HT. injection HT as <-. repeat split. }
    destruct EC as (E1 & E2 & E3).
    md 3 SpecTiger.H0 (SpecTiger.compress tables (3 + p)).
    { intros s b Hs Hb. destruct (LTiger.process_spec p s b Hs Hb) as [<- K]. exact K. }
    rewrite E1, E2, E3. intros HI junk os HJ HF HL.
    destruct (PTiger.C11_tiger_digest p inj junk os HI HJ HF HL) as (C' & T1 & T2).
    rewrite HT in T1. injection T1 as <-. exact T2.
Qed.
Lemma collisions_extend inj C suf ext : full_state_hash inj C suf ext ->
  injector_contract (c_endian C) (c_word C) (c_words C) inj ->
  forall junk junk' os os' s, block_ok (c_word C) (c_words C) junk -> block_ok (c_word C) (c_words C) junk' ->
  Forall (fits 8) os -> Forall (fits 8) os' -> Forall (fits 8) s -> length os' = length os ->
  (N.of_nat (8 * length (os ++ suf (length os) ++ s)) < 2 ^ 64)%N ->
  hash_once C inj 8 junk os = hash_once C inj 8 junk os' ->
  hash_once C inj 8 junk' (os ++ suf (length os) ++ s) = hash_once C inj 8 junk' (os' ++ suf (length os) ++ s).
Proof.
  intros H HI junk junk' os os' s HJ HJ' Fo Fo' Fs L Hl E.
  destruct (extends_all _ _ _ _ H junk junk' os s HI HJ HJ' Fo Fs Hl) as (d & D1 & D2).
  assert (Hl' : (N.of_nat (8 * length (os' ++ suf (length os') ++ s)) < 2 ^ 64)%N).
  { rewrite L. rewrite app_length, L, <- app_length. exact Hl. }
  destruct (extends_all _ _ _ _ H junk junk' os' s HI HJ HJ' Fo' Fs Hl') as (d' & D1' & D2').
  rewrite L in D2'. rewrite D2, D2'. rewrite D1, D1' in E. injection E as ->. reflexivity.
Qed.
