(** Statements used by PSponge.v. *)
From Coq Require Import NArith Arith List Bool Lia ZifyBool ZifyNat ZifyN ZArith.
From Verif Require Import SpecStream LStream MPack LInj MAcc LAcc LBsp MConstr SpecMD LMD LMDProps SpecHist LHist
  LMDStmt SpecOctets LGen SpecKeccak MKeccak SpecSponge LKeccakF LKeccakP LKeccakBij LSponge.
Import ListNotations.
Ltac Zify.zify_post_hook ::= Z.div_mod_to_equations.
#[local] Opaque keccak_f.

Lemma keccak_words_bits d : sponge_size d -> 64 * keccak_words d = 1600 - 2 * d.
Proof. intros [H1 H2]. unfold keccak_words. lia. Qed.

Lemma sponge_side d : sponge_size d ->
  0 < keccak_words d <= 25 /\ d mod 8 = 0 /\ d + 64 <= 1600 /\
  d / (64 * keccak_words d) * keccak_words d + keccak_words d <= 25.
Proof.
  intros H. pose proof (keccak_words_bits d H) as E. destruct H as [H1 H2].
  set (k := keccak_words d) in *. clearbody k.
  assert (0 < k <= 25) by lia. repeat split; try lia.
Qed.

#[local] Opaque keccak_words.

Section Instances.
Context (perm : list N -> list N) (HP : perm_correct perm) (d : nat) (Hd : sponge_size d).
Context (injb : injector) (HIb : injector_contract BOLB 64 (keccak_words d) injb).

Lemma keccak_wf : wf_construction (keccak_1600 perm injb d).
Proof. destruct (sponge_side d Hd). constructor; cbn; auto; lia. Qed.
Lemma sha3_wf : wf_construction (sha3 injb d).
Proof. destruct (sponge_side d Hd). constructor; cbn; auto; lia. Qed.

Lemma keccak_correct : digest_correct (keccak_1600 perm injb d) (fun M => length M mod 8 = 0)
  (sponge_out (keccak_words d) d []).
Proof.
  destruct (sponge_side d Hd) as (H1 & H2 & H3 & H4).
  apply (sponge_digest_correct perm HP (keccak_words d) d []); auto.
  - cbn. lia.
  - intros b seen Hb Hs. cbn [length] in Hs |- *. apply keccak_padding_spec; auto; lia.
Qed.

Lemma sha3_correct : digest_correct (sha3 injb d) (fun M => length M mod 8 = 0)
  (sponge_out (keccak_words d) d [false; true]).
Proof.
  destruct (sponge_side d Hd) as (H1 & H2 & H3 & H4).
  apply (sponge_digest_correct permute permute_correct (keccak_words d) d [false; true]); auto.
  intros b seen Hb Hs. cbn [length] in Hs |- *. apply sha3_padding_spec; auto; lia.
Qed.

Lemma keccak_octets os : Forall (fits 8) os ->
  sponge_out (keccak_words d) d [] (octets_bits os) = Keccak_octets d os.
Proof.
  intros HF. unfold sponge_out, Keccak_octets, Keccak. now rewrite lsb_octets, app_nil_r, keccak_words_bits by auto.
Qed.
Lemma sha3_octets os : Forall (fits 8) os ->
  sponge_out (keccak_words d) d [false; true] (octets_bits os) = SHA3_octets d os.
Proof.
  intros HF. unfold sponge_out, SHA3_octets, SHA3. now rewrite lsb_octets, keccak_words_bits by auto.
Qed.
End Instances.

Lemma octets_ok8 os : Forall (fits 8) os -> True -> length (octets_bits os) mod 8 = 0.
Proof. intros _ _. rewrite octets_bits_length. lia. Qed.

Lemma host_ok : host_order = BOBB \/ host_order = LOBB.
Proof. right. reflexivity. Qed.

Section Both.
Context (d : nat) (Hd : sponge_size d) (injb : injector)
  (HIb : injector_contract BOLB 64 (keccak_words d) injb).
Context (C : construction) (H : list N -> list N) (HC : sponge_hash d injb C H).
Context (inj : injector) (HI : injector_contract BOBB 64 (keccak_words d) inj).

Lemma both_host : c_host C = host_order.
Proof. now destruct HC. Qed.

Lemma both_shape : c_endian C = BOBB /\ c_word C = 64 /\ c_words C = keccak_words d /\ wf_construction C.
Proof.
  destruct HC; (split; [reflexivity|]); (split; [reflexivity|]); (split; [reflexivity|]);
    [apply sha3_wf|apply keccak_wf]; auto.
Qed.

Lemma both_correct : exists D, digest_correct C (fun M => length M mod 8 = 0) D /\
  forall os, Forall (fits 8) os -> D (octets_bits os) = H os.
Proof.
  destruct HC as [|perm HP].
  - exists (sponge_out (keccak_words d) d [false; true]). split; [now apply sha3_correct|].
    intros. now apply sha3_octets.
  - exists (sponge_out (keccak_words d) d []). split; [now apply keccak_correct|].
    intros. now apply keccak_octets.
Qed.

Lemma both_once vb xs junk : block_ok 64 (keccak_words d) junk ->
  vb mod 8 = 0 -> 0 < vb -> 64 mod vb = 0 -> Forall (fits vb) xs ->
  (N.of_nat (8 * length (range_octets host_order vb xs)) < 2 ^ 64)%N ->
  hash_once C inj vb junk xs = Some (H (range_octets host_order vb xs)).
Proof.
  destruct both_shape as (E1 & E2 & E3 & WF). destruct both_correct as (D & DC & HD).
  intros. rewrite <- both_host. apply (gen_once C inj WF) with (ok := fun M => length M mod 8 = 0) (D := D) (okO := fun _ => True);
    rewrite ?E1, ?E2, ?E3, ?both_host; auto using octets_ok8, host_ok.
Qed.

Lemma both_once_octets os junk : block_ok 64 (keccak_words d) junk -> Forall (fits 8) os ->
  (N.of_nat (8 * length os) < 2 ^ 64)%N ->
  hash_once C inj 8 junk os = Some (H os).
Proof.
  destruct both_shape as (E1 & E2 & E3 & WF). destruct both_correct as (D & DC & HD).
  intros. apply (gen_once_octets C inj WF) with (ok := fun M => length M mod 8 = 0) (D := D) (okO := fun _ => True);
    rewrite ?E1, ?E2, ?E3, ?both_host; auto using octets_ok8, host_ok.
Qed.

Lemma both_pieces ps junk : block_ok 64 (keccak_words d) junk ->
  Forall (fun p => fst p mod 8 = 0 /\ 0 < fst p /\ 64 mod fst p = 0 /\ Forall (fits (fst p)) (snd p)) ps ->
  (N.of_nat (8 * length (pieces_octets host_order ps)) < 2 ^ 64)%N ->
  exists a, hash_pieces C inj (acc_init C junk) ps = Some a /\
    acc_result C a = Some (H (pieces_octets host_order ps)).
Proof.
  destruct both_shape as (E1 & E2 & E3 & WF). destruct both_correct as (D & DC & HD).
  intros. rewrite <- both_host.
  apply (gen_pieces C inj WF) with (ok := fun M => length M mod 8 = 0) (D := D) (okO := fun _ => True);
    rewrite ?E1, ?E2, ?E3, ?both_host; auto using octets_ok8, host_ok.
Qed.

Lemma both_block_feeds fs junk : block_ok 64 (keccak_words d) junk ->
  Forall (fun f => block_ok 64 (keccak_words d) (fst f) /\ 0 < snd f <= 8 * keccak_words d) fs ->
  (N.of_nat (8 * length (blocks_octets BOBB 64 fs)) < 2 ^ 64)%N ->
  exists a, acc_feeds C inj (acc_init C junk) (map (fun f => FBlock (fst f) (8 * snd f)) fs) = Some a /\
    total a = N.of_nat (8 * length (blocks_octets BOBB 64 fs)) /\
    acc_result C a = Some (H (blocks_octets BOBB 64 fs)).
Proof.
  destruct both_shape as (E1 & E2 & E3 & WF). destruct both_correct as (D & DC & HD).
  intros. rewrite <- E1, <- E2.
  apply (gen_block_feeds C inj WF) with (ok := fun M => length M mod 8 = 0) (D := D) (okO := fun _ => True);
    rewrite ?E1, ?E2, ?E3, ?both_host; auto using octets_ok8, host_ok.
  replace (64 * keccak_words d / 8) with (8 * keccak_words d) by lia. auto.
Qed.

Lemma both_history ops junk : block_ok 64 (keccak_words d) junk ->
  Forall (fun o => match o with
                   | OpHash vb xs => vb mod 8 = 0 /\ 0 < vb /\ 64 mod vb = 0 /\ Forall (fits vb) xs
                   | OpExtract => True end) ops ->
  (N.of_nat (8 * length (history_octets host_order ops)) < 2 ^ 64)%N ->
  run_ops C inj (acc_init C junk) ops = Some (expected_octets host_order H [] ops).
Proof.
  destruct both_shape as (E1 & E2 & E3 & WF). destruct both_correct as (D & DC & HD).
  intros. rewrite <- both_host.
  apply (gen_history C inj WF) with (ok := fun M => length M mod 8 = 0) (D := D) (okO := fun _ => True);
    rewrite ?E1, ?E2, ?E3, ?both_host; auto using octets_ok8, host_ok.
Qed.

(** One bit fed: the padding overwrites it. *)
Lemma both_one_bit v v' junk : block_ok 64 (keccak_words d) junk ->
  block_ok 64 (keccak_words d) v -> block_ok 64 (keccak_words d) v' ->
  hd 0%N v = (2 ^ 63)%N -> hd 0%N v' = 0%N ->
  exists a a' x, acc_feeds C inj (acc_init C junk) [FBlock v 1] = Some a /\
    acc_feeds C inj (acc_init C junk) [FBlock v' 1] = Some a' /\
    acc_result C a = Some x /\ acc_result C a' = Some x.
Proof.
  intros Hj Hv Hv' E0 E0'. destruct (sponge_side d Hd) as (S1 & S2 & S3 & S4).
  assert (R : forall v, block_ok 64 (keccak_words d) v ->
    acc_feeds C inj (acc_init C junk) [FBlock v 1] =
    Some (Mk_acc false 1%N (firstn 1 v ++ skipn 1 junk) (c_init C))).
  { intros u Hu. destruct both_shape as (E1 & E2 & E3 & WF).
    cbn [acc_feeds acc_feed]. change (1 =? 0) with false. cbv iota.
    unfold process_block_value, flush, acc_init.
    cbn [filled total cache cst]. unfold cached_bits, words_for, block_bits. cbn [total].
    rewrite E2, E3. rewrite N.mod_0_l by lia.
    change (negb (N.to_nat 0 =? 0)) with false. cbv iota.
    replace (1 =? 64 * keccak_words d) with false by lia.
    change (1 / 64 + (if 1 mod 64 =? 0 then 0 else 1)) with 1.
    replace (1 <=? keccak_words d) with true by lia. reflexivity. }
  rewrite (R v Hv), (R v' Hv'). do 2 eexists.
  assert (Lj : length junk = keccak_words d) by apply Hj.
  set (b := firstn 1 v ++ skipn 1 junk). set (b' := firstn 1 v' ++ skipn 1 junk).
  assert (Hb : forall v, block_ok 64 (keccak_words d) v -> block_ok 64 (keccak_words d) (firstn 1 v ++ skipn 1 junk)).
  { intros u [Lu Fu]. split.
    - rewrite app_length, firstn_length, skipn_length. lia.
    - apply Forall_app. split; [now apply Forall_firstn'|]. destruct Hj as [_ F].
      rewrite <- (firstn_skipn 1 junk) in F. apply Forall_app in F. apply F. }
  assert (Es : firstn 1 (stream BOLB 64 b) = [false] /\ firstn 1 (stream BOLB 64 b') = [false]).
  { unfold b, b'. destruct v as [|x v]; [destruct Hv; cbn in *; lia|]. destruct v' as [|x' v']; [destruct Hv'; cbn in *; lia|].
    cbn [hd] in E0, E0'. subst. cbn [firstn]. rewrite !stream_app. split; reflexivity. }
  enough (K : acc_result C (Mk_acc false 1%N b (c_init C)) = acc_result C (Mk_acc false 1%N b' (c_init C)) /\
          acc_result C (Mk_acc false 1%N b (c_init C)) <> None).
  { destruct K as [K1 K2]. destruct (acc_result C (Mk_acc false 1%N b (c_init C))) as [x|] eqn:E; [|congruence].
    exists x. split; [reflexivity|]. split; [reflexivity|]. split; [exact E|now symmetry]. }
  unfold acc_result. cbn [cst cache total].
  destruct HC as [|perm HP]; cbn [c_digest sha3 keccak_1600 sponge_construction c_init]; unfold sponge_digest;
  rewrite <- (Nnat.N2Nat.id 1), <- Nnat.Nat2N.inj_mod, Nnat.Nat2N.id; change (N.to_nat 1) with 1;
  rewrite Nat.mod_small by lia; change (1 =? 0) with false; rewrite andb_false_r.
  - destruct (sha3_padding_spec injb (keccak_words d) HIb b 1) as (p & P1 & P2 & P3); [now apply Hb|lia|].
    destruct (sha3_padding_spec injb (keccak_words d) HIb b' 1) as (p' & P1' & P2' & P3'); [now apply Hb|lia|].
    rewrite P1, P1'. assert (p = p') as <-.
    { apply (stream_inj BOLB 64); try lia; try apply P2; try apply P2'. rewrite P3, P3'.
      destruct Es as [Es Es']. now rewrite Es, Es'. }
    split; [reflexivity|discriminate].
  - destruct (keccak_padding_spec injb (keccak_words d) HIb b 1) as (p & P1 & P2 & P3); [now apply Hb|lia|].
    destruct (keccak_padding_spec injb (keccak_words d) HIb b' 1) as (p' & P1' & P2' & P3'); [now apply Hb|lia|].
    rewrite P1, P1'. assert (p = p') as <-.
    { apply (stream_inj BOLB 64); try lia; try apply P2; try apply P2'. rewrite P3, P3'.
      destruct Es as [Es Es']. now rewrite Es, Es'. }
    split; [reflexivity|discriminate].
Qed.

End Both.

(** The padded messages of FIPS 202 determine the message. *)
Lemma pad10star1_inj r s1 s2 : s1 ++ pad10star1 r (length s1) = s2 ++ pad10star1 r (length s2) -> s1 = s2.
Proof.
  intros E. unfold pad10star1 in E. rewrite !app_assoc in E. apply app_inj_tail in E. destruct E as [E _].
  assert (K : forall (a b : list bool) n m, (a ++ [true]) ++ repeat false n = (b ++ [true]) ++ repeat false m -> a = b).
  { clear. intros a b n. induction n as [|n IH]; intros m E.
    - destruct m as [|m]; cbn [repeat] in E.
      + rewrite !app_nil_r in E. now apply app_inj_tail in E.
      + rewrite app_nil_r, repeat_cons, app_assoc in E. apply app_inj_tail in E. now destruct E.
    - destruct m as [|m].
      + cbn [repeat] in E. rewrite app_nil_r, repeat_cons, app_assoc in E. apply app_inj_tail in E. now destruct E.
      + cbn [repeat] in E. rewrite !repeat_cons, !app_assoc in E. apply app_inj_tail in E. destruct E as [E _]. eauto. }
  apply (K _ _ _ _ E).
Qed.

Lemma octets_bits_lsb_inj o1 o2 : Forall (fits 8) o1 -> Forall (fits 8) o2 ->
  octets_bits_lsb o1 = octets_bits_lsb o2 -> o1 = o2.
Proof. intros. apply (stream_inj LOLB 8); auto; lia. Qed.

Lemma padded_inj r sfx o1 o2 : Forall (fits 8) o1 -> Forall (fits 8) o2 ->
  (octets_bits_lsb o1 ++ sfx) ++ pad10star1 r (length (octets_bits_lsb o1 ++ sfx)) =
  (octets_bits_lsb o2 ++ sfx) ++ pad10star1 r (length (octets_bits_lsb o2 ++ sfx)) -> o1 = o2.
Proof.
  intros H1 H2 E. apply pad10star1_inj in E. apply app_inv_tail in E. now apply octets_bits_lsb_inj.
Qed.

(** Bits of the supplied block beyond the stated count reach the digest. *)
Lemma sha3_stale_bits :
  let C := sha3 (inj_keep BOLB 64 17) 256 in
  let run v := match acc_feeds C (inj_keep BOBB 64 17) (acc_init C (repeat 0%N 17)) [FBlock v 1] with
               | Some a => acc_result C a | None => None end in
  let v := (2 ^ 63 :: repeat 0 16)%N in
  let v' := (2 ^ 63 + 2 ^ 56 :: repeat 0 16)%N in
  firstn 1 (stream BOBB 64 v) = firstn 1 (stream BOBB 64 v') /\ run v <> None /\ run v' <> None /\ run v <> run v'.
Proof. vm_compute. repeat split; discriminate. Qed.

Lemma sponge_example :
  sponge_size 256 /\ injector_contract BOLB 64 (keccak_words 256) (inj_keep BOLB 64 17) /\
  injector_contract BOBB 64 (keccak_words 256) (inj_run BOBB 64 17) /\
  block_ok 64 (keccak_words 256) (repeat 5%N 17) /\ sponge_hash 256 (inj_keep BOLB 64 17)
    (sha3 (inj_keep BOLB 64 17) 256) (SHA3_octets 256).
Proof.
  change (keccak_words 256) with 17.
  split; [split; [reflexivity|lia]|].
  split; [apply inj_keep_contract; (reflexivity || lia)|].
  split; [apply inj_run_contract; (reflexivity || lia)|].
  split; [|constructor].
  split; [reflexivity|]; repeat constructor; unfold fits; reflexivity.
Qed.

(** Argument orders of PSponge.v. *)
Lemma sha3_once d injb inj junk os :
  sponge_size d -> injector_contract BOLB 64 (keccak_words d) injb ->
  injector_contract BOBB 64 (keccak_words d) inj -> block_ok 64 (keccak_words d) junk ->
  Forall (fits 8) os -> (N.of_nat (8 * length os) < 2 ^ 64)%N ->
  hash_once (sha3 injb d) inj 8 junk os = Some (bits_octets_lsb (SHA3 d (octets_bits_lsb os))).
Proof. intros. apply (both_once_octets d) with (injb := injb) (H := SHA3_octets d); auto. constructor. Qed.

Lemma keccak_once d injb inj junk os :
  sponge_size d -> injector_contract BOLB 64 (keccak_words d) injb ->
  injector_contract BOBB 64 (keccak_words d) inj -> block_ok 64 (keccak_words d) junk ->
  Forall (fits 8) os -> (N.of_nat (8 * length os) < 2 ^ 64)%N ->
  hash_once (keccak_1600 permute injb d) inj 8 junk os =
  Some (bits_octets_lsb (Keccak d (octets_bits_lsb os))).
Proof.
  intros. apply (both_once_octets d) with (injb := injb) (H := Keccak_octets d); auto.
  constructor. reflexivity.
Qed.

Section Statements.
Context (d : nat) (injb inj : injector) (junk : list N) (C : construction) (H : list N -> list N).

Lemma sponge_pieces ps :
  sponge_size d -> injector_contract BOLB 64 (keccak_words d) injb -> sponge_hash d injb C H ->
  injector_contract BOBB 64 (keccak_words d) inj -> block_ok 64 (keccak_words d) junk ->
  Forall (fun p => fst p mod 8 = 0 /\ 0 < fst p /\ 64 mod fst p = 0 /\ Forall (fits (fst p)) (snd p)) ps ->
  (N.of_nat (8 * length (pieces_octets host_order ps)) < 2 ^ 64)%N ->
  exists a, hash_pieces C inj (acc_init C junk) ps = Some a /\
    acc_result C a = Some (H (pieces_octets host_order ps)).
Proof. intros. eapply both_pieces; eauto. Qed.

Lemma pieces_octets_8 (pieces : list (list N)) : Forall (Forall (fits 8)) pieces ->
  pieces_octets host_order (map (fun p => (8, p)) pieces) = concat pieces.
Proof.
  induction 1 as [|p ps Hp HF IH]; [reflexivity|].
  unfold pieces_octets in *. cbn [map flat_map concat fst snd]. rewrite IH. f_equal.
  clear - Hp. unfold range_octets. induction Hp as [|o os Ho HF IH]; [reflexivity|].
  cbn [flat_map]. rewrite IH. assert (Eo : (o mod 256)%N = o) by (apply N.mod_small; exact Ho).
  change (8 / 8) with 1; cbn; now rewrite Eo.
Qed.

Lemma sponge_pieces_once (pieces : list (list N)) :
  sponge_size d -> injector_contract BOLB 64 (keccak_words d) injb -> sponge_hash d injb C H ->
  injector_contract BOBB 64 (keccak_words d) inj -> block_ok 64 (keccak_words d) junk ->
  Forall (Forall (fits 8)) pieces -> (N.of_nat (8 * length (concat pieces)) < 2 ^ 64)%N ->
  exists a x, hash_pieces C inj (acc_init C junk) (map (fun p => (8, p)) pieces) = Some a /\
    acc_result C a = Some x /\ hash_once C inj 8 junk (concat pieces) = Some x.
Proof.
  intros Hd HB HC HI Hj HF Hs.
  destruct (sponge_pieces (map (fun p => (8, p)) pieces)) as (a & E1 & E2); auto.
  - apply Forall_map. eapply Forall_impl; [|exact HF]. intros p Hp. cbn [fst snd].
    split; [reflexivity|]. split; [lia|]. split; [reflexivity|auto].
  - rewrite pieces_octets_8; auto.
  - rewrite pieces_octets_8 in E2 by auto. exists a, (H (concat pieces)). split; [auto|]. split; [auto|].
    eapply both_once_octets; eauto. now apply Forall_concat_ok.
Qed.

Lemma sponge_wide vb xs :
  sponge_size d -> injector_contract BOLB 64 (keccak_words d) injb -> sponge_hash d injb C H ->
  injector_contract BOBB 64 (keccak_words d) inj -> block_ok 64 (keccak_words d) junk ->
  In vb [8; 16; 32; 64] -> Forall (fits vb) xs ->
  (N.of_nat (8 * length (range_octets host_order vb xs)) < 2 ^ 64)%N ->
  hash_once C inj vb junk xs = Some (H (range_octets host_order vb xs)).
Proof.
  intros Hd HB HC HI Hj Hv HF Hs.
  assert (vb mod 8 = 0 /\ 0 < vb /\ 64 mod vb = 0) as (H1 & H2 & H3).
  { cbn in Hv. destruct Hv as [<-|[<-|[<-|[<-|[]]]]]; repeat split; (reflexivity || lia). }
  eapply both_once; eauto.
Qed.

Lemma sponge_history ops :
  sponge_size d -> injector_contract BOLB 64 (keccak_words d) injb -> sponge_hash d injb C H ->
  injector_contract BOBB 64 (keccak_words d) inj -> block_ok 64 (keccak_words d) junk ->
  Forall (fun o => match o with
                   | OpHash vb xs => vb mod 8 = 0 /\ 0 < vb /\ 64 mod vb = 0 /\ Forall (fits vb) xs
                   | OpExtract => True end) ops ->
  (N.of_nat (8 * length (history_octets host_order ops)) < 2 ^ 64)%N ->
  run_ops C inj (acc_init C junk) ops = Some (expected_octets host_order H [] ops).
Proof. intros. eapply both_history; eauto. Qed.

Lemma sponge_feeds fs :
  sponge_size d -> injector_contract BOLB 64 (keccak_words d) injb -> sponge_hash d injb C H ->
  injector_contract BOBB 64 (keccak_words d) inj -> block_ok 64 (keccak_words d) junk ->
  Forall (fun f => block_ok 64 (keccak_words d) (fst f) /\ 0 < snd f <= 8 * keccak_words d) fs ->
  (N.of_nat (8 * length (blocks_octets BOBB 64 fs)) < 2 ^ 64)%N ->
  exists a, acc_feeds C inj (acc_init C junk) (map (fun f => FBlock (fst f) (8 * snd f)) fs) = Some a /\
    total a = N.of_nat (8 * length (blocks_octets BOBB 64 fs)) /\
    acc_result C a = Some (H (blocks_octets BOBB 64 fs)).
Proof. intros. eapply both_block_feeds; eauto. Qed.

Lemma sponge_one_bit v v' :
  sponge_size d -> injector_contract BOLB 64 (keccak_words d) injb -> sponge_hash d injb C H ->
  injector_contract BOBB 64 (keccak_words d) inj -> block_ok 64 (keccak_words d) junk ->
  block_ok 64 (keccak_words d) v -> block_ok 64 (keccak_words d) v' ->
  hd 0%N v = (2 ^ 63)%N -> hd 0%N v' = 0%N ->
  firstn 1 (stream BOBB 64 v) = [true] /\ firstn 1 (stream BOBB 64 v') = [false] /\
  exists a a' x, acc_feeds C inj (acc_init C junk) [FBlock v 1] = Some a /\
    acc_feeds C inj (acc_init C junk) [FBlock v' 1] = Some a' /\
    acc_result C a = Some x /\ acc_result C a' = Some x.
Proof.
  intros Hd HB HC HI Hj Hv Hv' E E'. destruct (sponge_side d Hd) as (S1 & _).
  split; [|split; [|eapply both_one_bit; eauto]].
  - destruct v as [|x v]; [destruct Hv as [L _]; cbn [length] in L; lia|]. cbn [hd] in E. subst.
    rewrite stream_cons. reflexivity.
  - destruct v' as [|x v']; [destruct Hv' as [L _]; cbn [length] in L; lia|]. cbn [hd] in E'. subst.
    rewrite stream_cons. reflexivity.
Qed.
End Statements.

Lemma permute_example : block_ok 64 25 (map N.of_nat (seq 7 25)) /\
  permute (map N.of_nat (seq 7 25)) <> map N.of_nat (seq 7 25).
Proof.
  split; [|vm_compute; discriminate]. split; [reflexivity|].
  cbn [seq map]. repeat constructor; unfold fits; reflexivity.
Qed.
