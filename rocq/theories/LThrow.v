(** Ranges whose reading fails: proofs. *)
From Coq Require Import NArith ZArith Arith List Bool Lia ZifyBool ZifyNat ZifyN.
From Verif Require Import SpecStream SpecOctets SpecOctetHash SpecHash MPack MAcc MMisc MHash MXmd MPedersen MCrc SpecStore MStore SpecThrow MThrow SpecLibrary.
From Verif Require Import LGen LHash LLibrary.
Import ListNotations.
Ltac Zify.zify_post_hook ::= Z.div_mod_to_equations.

Definition failed {A} (rs : list (option A)) : bool := existsb (fun r => match r with None => true | _ => false end) rs.
Lemma failed_spec {A} (rs : list (option A)) : failed rs = true <-> throws rs.
Proof.
  unfold failed, throws. rewrite existsb_exists. split.
  - intros ([x|] & H1 & H2); [discriminate|exact H1].
  - intros H. now exists None.
Qed.

Section Reads.
Context (C : construction) (inj : injector).
Lemma bsp_reads_before vb rs : forall p, bsp_reads C inj vb p rs =
  option_map (fun p' => (p', failed rs)) (bsp_update_n C inj vb p (read_before rs)).
Proof.
  induction rs as [|[x|] r IH]; intros p; cbn [bsp_reads read_before bsp_update_n]; [reflexivity| |reflexivity].
  destruct (bsp_update_one C inj vb p x) as [p'|]; [apply IH|reflexivity].
Qed.
Lemma into_reads_before vb a rs : into_reads C inj vb a rs = option_map (fun a' => (a', failed rs)) (hash_into C inj vb a (read_before rs)).
Proof.
  unfold into_reads, hash_into. rewrite bsp_reads_before.
  destruct (bsp_update_n C inj vb (bsp_init C vb a) (read_before rs)) as [p|]; reflexivity.
Qed.
Lemma reads_acc_before vb a rs : reads_acc C inj vb a rs = hash_into C inj vb a (read_before rs).
Proof. unfold reads_acc. rewrite into_reads_before. now destruct (hash_into C inj vb a (read_before rs)). Qed.
Lemma reads_out_before junk vb rs m out : reads_out C inj junk vb rs m out =
  match hash_into C inj vb (acc_init C junk) (read_before rs) with
  | None => None
  | Some a => if failed rs then Some (m, None) else option_map (fun r => (fst r, Some (snd r))) (as_iterator C m out a)
  end.
Proof.
  unfold reads_out. rewrite into_reads_before. destruct (hash_into C inj vb (acc_init C junk) (read_before rs)); [|reflexivity].
  cbn [option_map]. now destruct (failed rs).
Qed.
End Reads.

Section Short.
Context {St J U U' E D : Type} (init : J -> option St) (update : St -> U -> option St) (update' : St -> U' -> option St)
        (extract : St -> E -> option (D * St)) (short : U' -> U).
Lemma run_short : (forall s u, update' s u = update s (short u)) -> forall cs slots,
  run_store init update' extract slots cs = run_store init update extract slots (shortened short cs).
Proof.
  intros HU. induction cs as [|c cs IH]; intros slots; [reflexivity|]. destruct c as [i j|i u|i e|i k]; cbn [shortened map run_store];
    fold (shortened (J := J) (E := E) short cs).
  - destruct (init j); [apply IH|reflexivity].
  - destruct (slots i) as [s|]; [|reflexivity]. rewrite HU. destruct (update s (short u)); [apply IH|reflexivity].
  - destruct (slots i) as [s|]; [|reflexivity]. destruct (extract s e) as [[d s']|]; [|reflexivity]. now rewrite IH.
  - destruct (slots i) as [s|]; [apply IH|reflexivity].
Qed.
End Short.

Definition short_range (u : nat * list (option N)) : nat * list N := (fst u, read_before (snd u)).
Lemma mixed_short {K} (C : K -> construction) inj cs : mixed_reads C inj nothing cs = mixed_calls C inj nothing (shortened short_range cs).
Proof.
  unfold mixed_reads, mixed_calls. apply run_short. intros [k a] [vb rs]. cbn [fst snd short_range]. now rewrite reads_acc_before.
Qed.
Lemma h2f_short C inj b p m L count dst cs :
  h2f_reads C inj b p m L count dst nothing cs = h2f_calls C inj b p m L count dst nothing (shortened short_range cs).
Proof. unfold h2f_reads, h2f_calls. apply run_short. intros a [vb rs]. apply reads_acc_before. Qed.
Lemma pedersen_short {G} (zero : G) add mul base p width c cs :
  pedersen_reads zero add mul base p width c nothing cs = pedersen_calls zero add mul base p width c nothing (shortened read_before cs).
Proof.
  unfold pedersen_reads, pedersen_calls. apply run_short. intros a rs. revert a.
  induction rs as [|[x|] r IH]; intros a; cbn [bits_reads read_before update_bits]; [reflexivity| |reflexivity].
  destruct (update_bit add mul base p width c a x); [apply IH|reflexivity].
Qed.
Lemma crc_short cc bits cs :
  crc_reads cc bits nothing cs = crc_calls cc bits nothing (shortened (fun rs => (Weaker, read_before rs)) cs).
Proof.
  unfold crc_reads, crc_calls. apply run_short. intros s rs. cbn [fst snd stream_range]. f_equal. revert s.
  induction rs as [|[x|] r IH]; intros s; cbn [crc_values_reads read_before each_value]; [reflexivity|apply IH|reflexivity].
Qed.

Lemma output inj C H vb rs m out junk : library_hash inj C H ->
  vb mod 8 = 0 -> 0 < vb -> c_word C mod vb = 0 -> Forall (fits vb) (read_before rs) -> block_ok (c_word C) (c_words C) junk ->
  (N.of_nat (vb * length (read_before rs)) < 2 ^ 64)%N ->
  (throws rs -> reads_out C inj junk vb rs m out = Some (m, None)) /\
  (~ throws rs -> exists m' next, reads_out C inj junk vb rs m out = Some (m', Some next) /\
     written m out (H (range_octets host_order vb (read_before rs))) (Some (m', next))).
Proof.
  intros HL H8 H0 Hw HF Hj Hs. destruct (library_words _ _ _ HL) as [_ HH]. destruct (library_octet_hash _ _ _ HL) as (_ & _ & _ & _ & K).
  destruct (K junk [(vb, read_before rs)] Hj) as (a & E & R).
  - constructor; [|constructor]. unfold piece_ok. cbn [fst snd]. repeat split; auto.
  - rewrite HH. unfold pieces_octets. cbn [flat_map map concat fst snd]. rewrite app_nil_r, range_octets_length.
    replace (8 * (vb / 8 * length (read_before rs))) with (vb * length (read_before rs)); [exact Hs|]. rewrite Nat.mul_assoc. f_equal. lia.
  - rewrite HH in R. unfold pieces_octets in R. cbn [flat_map map concat fst snd] in R. rewrite app_nil_r in R.
    cbn [hash_pieces] in E. rewrite reads_out_before.
    destruct (hash_into C inj vb (acc_init C junk) (read_before rs)) as [b|]; [|discriminate]. injection E as ->. split; intros HT.
    + apply failed_spec in HT. now rewrite HT.
    + destruct (failed rs) eqn:EF; [exfalso; apply HT, failed_spec, EF|]. unfold as_iterator. rewrite R. cbn [option_map].
      set (d := H (range_octets host_order vb (read_before rs))).
      destruct (write_all_ok d m out) as (m' & E1 & Q). rewrite E1. exists m', (out + length d). split; [reflexivity|].
      exists m'. split; [reflexivity|exact Q].
Qed.
