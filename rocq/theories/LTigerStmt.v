(** The accumulator properties (C02-C06) for Tiger-padded hashes, on octet strings; closing forms. *)
From Coq Require Import NArith Arith List Bool Lia ZifyBool ZifyNat ZifyN ZArith.
From Verif Require Import SpecStream LStream MPack LInj MAcc LAcc LBsp MConstr SpecMD LMD LMDProps SpecHist LHist LMDStmt SpecOctets LGen.
Import ListNotations.
Ltac Zify.zify_post_hook ::= Z.div_mod_to_equations.

Section TG.
Context (e : endian) (w bw lb dw : nat) (iv : list N) (comp : list N -> list N -> list N) (inj : injector).
Context (MP : md_params w bw lb) (HI : injector_contract e w bw inj) (He : e = BOBB \/ e = LOBB).
Context (junk : list N) (Hj : block_ok w bw junk).
Notation C := (tgC e w bw lb dw iv comp inj).
Context (H : list N -> list N).
Context (HD : forall os, Forall (fits 8) os -> True -> md_hash e w bw lb (w * dw) tiger_marker iv comp (octets_bits os) = H os).
Notation okO := (fun _ : list N => True).

Local Lemma ok8 os : Forall (fits 8) os -> True -> length (octets_bits os) mod 8 = 0.
Proof. intros _ _. rewrite octets_bits_length. lia. Qed.
Local Lemma Hh : c_host C = BOBB \/ c_host C = LOBB.
Proof. right. reflexivity. Qed.
Local Lemma W : wf_construction C. Proof. now apply tgC_wf. Qed.
Local Lemma DC : digest_correct C (fun M => length M mod 8 = 0) (md_hash e w bw lb (w * dw) tiger_marker iv comp).
Proof. now apply tgC_correct. Qed.

Lemma tg_pieces ps :
  Forall (fun p => fst p mod 8 = 0 /\ 0 < fst p /\ w mod fst p = 0 /\ Forall (fits (fst p)) (snd p)) ps ->
  (N.of_nat (8 * length (pieces_octets host_order ps)) < 2 ^ 64)%N ->
  exists a, hash_pieces C inj (acc_init C junk) ps = Some a /\ acc_result C a = Some (H (pieces_octets host_order ps)).
Proof.
  intros HF Hs.
  exact (gen_pieces C inj W HI He Hh _ _ DC okO H ok8 HD junk ps Hj HF I Hs).
Qed.

Lemma tg_pieces_once (pieces : list (list N)) : Forall (Forall (fits 8)) pieces ->
  (N.of_nat (8 * length (concat pieces)) < 2 ^ 64)%N ->
  exists a x, hash_pieces C inj (acc_init C junk) (map (fun p => (8, p)) pieces) = Some a /\
    acc_result C a = Some x /\ hash_once C inj 8 junk (concat pieces) = Some x.
Proof.
  intros HF Hs.
  assert (E : pieces_octets host_order (map (fun p => (8, p)) pieces) = concat pieces).
  { clear Hs. induction HF as [|p ps Hp HF IH]; [reflexivity|].
    unfold pieces_octets in *. cbn [map flat_map concat fst snd]. rewrite IH. f_equal.
    exact (range_octets_8 C Hh p Hp). }
  destruct (tg_pieces (map (fun p => (8, p)) pieces)) as (a & E1 & R1).
  - apply Forall_map. eapply Forall_impl; [|exact HF]. intros p Hp. cbn [fst snd]. repeat split; auto; try lia. apply MP.
  - rewrite E. exact Hs.
  - exists a. eexists. split; [exact E1|]. split; [exact R1|]. rewrite E.
    apply (gen_once_octets C inj W HI He Hh _ _ DC okO H ok8 HD); auto.
    now apply Forall_concat.
Qed.

Lemma tg_wide vb xs : vb mod 8 = 0 /\ 0 < vb /\ w mod vb = 0 -> Forall (fits vb) xs ->
  (N.of_nat (8 * length (range_octets host_order vb xs)) < 2 ^ 64)%N ->
  hash_once C inj vb junk xs = Some (H (range_octets host_order vb xs)).
Proof.
  intros (H1 & H2 & H3) HF Hs.
  apply (gen_once C inj W HI He Hh _ _ DC okO H ok8 HD); auto.
Qed.

Lemma tg_history ops :
  Forall (fun o => match o with
                   | OpHash vb xs => vb mod 8 = 0 /\ 0 < vb /\ w mod vb = 0 /\ Forall (fits vb) xs
                   | OpExtract => True end) ops ->
  (N.of_nat (8 * length (history_octets host_order ops)) < 2 ^ 64)%N ->
  run_ops C inj (acc_init C junk) ops = Some (expected_octets host_order H [] ops).
Proof.
  intros HF Hs.
  apply (gen_history C inj W HI Hh _ _ DC okO H ok8 HD); auto.
Qed.

Lemma tg_feeds (fs : list (list N * nat)) :
  Forall (fun f => block_ok w bw (fst f) /\ 0 < snd f <= w * bw / 8) fs ->
  (N.of_nat (8 * length (blocks_octets e w fs)) < 2 ^ 64)%N ->
  exists a, acc_feeds C inj (acc_init C junk) (map (fun f => FBlock (fst f) (8 * snd f)) fs) = Some a /\
    total a = N.of_nat (8 * length (blocks_octets e w fs)) /\
    acc_result C a = Some (H (blocks_octets e w fs)).
Proof.
  intros HF Hs.
  exact (gen_block_feeds C inj W HI He _ _ DC okO H ok8 HD junk fs Hj HF I Hs).
Qed.
End TG.

(** For Tiger itself. *)
From Verif Require Import MTiger LTiger LRipemd.
From Verif Require SpecTiger SpecTigerTables PMD.
Section Tiger.
Context (k p : nat) (inj : injector) (junk : list N) (C : construction).
Context (HC : tiger (64 * (3 + k)) (3 + p) inj = Some C).
Context (HI : injector_contract LOBB 64 8 inj) (Hj : block_ok 64 8 junk).
Notation H := (fun os => SpecTiger.TIGER (3 + p) os ++ repeat 0%N (8 * k)).
Local Lemma HD os : Forall (fits 8) os -> True ->
  md_hash LOBB 64 8 64 (64 * (3 + k)) tiger_marker (tg_iv k) (tiger_process_block (3 + p)) (octets_bits os) = H os.
Proof. intros F _. now apply tiger_md_hash. Qed.
Local Lemma P : md_params 64 8 64. Proof. apply md_example. Qed.
Local Lemma EC : C = tg k p inj. Proof. rewrite tiger_is in HC. congruence. Qed.

Lemma tiger_pieces ps :
  Forall (fun p => fst p mod 8 = 0 /\ 0 < fst p /\ 64 mod fst p = 0 /\ Forall (fits (fst p)) (snd p)) ps ->
  (N.of_nat (8 * length (pieces_octets host_order ps)) < 2 ^ 64)%N ->
  exists a, hash_pieces C inj (acc_init C junk) ps = Some a /\ acc_result C a = Some (H (pieces_octets host_order ps)).
Proof. rewrite EC. exact (tg_pieces LOBB 64 8 64 (3 + k) _ _ inj P HI (or_intror eq_refl) junk Hj H HD ps). Qed.

Lemma tiger_pieces_once (pieces : list (list N)) : Forall (Forall (fits 8)) pieces ->
  (N.of_nat (8 * length (concat pieces)) < 2 ^ 64)%N ->
  exists a x, hash_pieces C inj (acc_init C junk) (map (fun p => (8, p)) pieces) = Some a /\
    acc_result C a = Some x /\ hash_once C inj 8 junk (concat pieces) = Some x.
Proof. rewrite EC. exact (tg_pieces_once LOBB 64 8 64 (3 + k) _ _ inj P HI (or_intror eq_refl) junk Hj H HD pieces). Qed.

Lemma tiger_wide vb xs : In vb [8; 16; 32; 64] -> Forall (fits vb) xs ->
  (N.of_nat (8 * length (range_octets host_order vb xs)) < 2 ^ 64)%N ->
  hash_once C inj vb junk xs = Some (H (range_octets host_order vb xs)).
Proof.
  rewrite EC. intros Hv. apply (tg_wide LOBB 64 8 64 (3 + k) _ _ inj P HI (or_intror eq_refl) junk Hj H HD vb xs).
  cbn in Hv. destruct Hv as [<-|[<-|[<-|[<-|[]]]]]; repeat split; auto; cbn; lia.
Qed.

Lemma tiger_history ops :
  Forall (fun o => match o with
                   | OpHash vb xs => vb mod 8 = 0 /\ 0 < vb /\ 64 mod vb = 0 /\ Forall (fits vb) xs
                   | OpExtract => True end) ops ->
  (N.of_nat (8 * length (history_octets host_order ops)) < 2 ^ 64)%N ->
  run_ops C inj (acc_init C junk) ops = Some (expected_octets host_order H [] ops).
Proof. rewrite EC. exact (tg_history LOBB 64 8 64 (3 + k) _ _ inj P HI junk Hj H HD ops). Qed.

Lemma tiger_feeds (fs : list (list N * nat)) :
  Forall (fun f => block_ok 64 8 (fst f) /\ 0 < snd f <= 64) fs ->
  (N.of_nat (8 * length (blocks_octets LOBB 64 fs)) < 2 ^ 64)%N ->
  exists a, acc_feeds C inj (acc_init C junk) (map (fun f => FBlock (fst f) (8 * snd f)) fs) = Some a /\
    total a = N.of_nat (8 * length (blocks_octets LOBB 64 fs)) /\
    acc_result C a = Some (H (blocks_octets LOBB 64 fs)).
Proof. rewrite EC. exact (tg_feeds LOBB 64 8 64 (3 + k) _ _ inj P HI (or_intror eq_refl) junk Hj H HD fs). Qed.
End Tiger.

Lemma tiger_process p state block :
  length state = 3 -> Forall (fits 64) state -> length block = 8 -> Forall (fits 64) block ->
  tiger_process_block (3 + p) state block = SpecTiger.compress SpecTigerTables.tables (3 + p) state block.
Proof. intros. now apply process_spec. Qed.

Lemma keyed_bijective n block : length block = 8 -> Forall (fits 64) block -> bij_on ok3 (keyed n block).
Proof. intros. now apply keyed_bij. Qed.

Lemma mix_bijective : bij_on (fun block => length block = 8 /\ Forall (fits 64) block) mix.
Proof.
  exists unmix. intros b Hb.
  split; [now apply mix_ok|]. split; [now apply unmix_ok|]. split; [now apply unmix_mix|now apply mix_unmix].
Qed.

Lemma tiger_small n p inj : (n < 192) -> tiger n p inj = None.
Proof.
  intros L. unfold tiger, tiger_iv. replace (n / 64 <? 3) with true by (symmetry; apply Nat.ltb_lt; lia).
  reflexivity.
Qed.
Lemma tiger_hyp : injector_contract LOBB 64 8 (inj_run LOBB 64 8) /\ block_ok 64 8 (map N.of_nat (seq 3 8)).
Proof.
  split; [apply inj_run_contract; (reflexivity || lia)|]. split; [reflexivity|].
  apply Forall_map. repeat constructor.
Qed.
