(** The Merkle-Damgard construction computes [md_hash]. *)
From Coq Require Import NArith Arith List Bool Lia ZifyBool ZifyNat ZifyN ZArith.
From Verif Require Import SpecStream LStream MPack LInj MAcc LAcc MConstr SpecMD.
Import ListNotations.
Ltac Zify.zify_post_hook ::= Z.div_mod_to_equations.

(** What a construction's digest must do on the state reached after a message. *)
Definition digest_correct (C : construction) (ok : list bool -> Prop) (D : list bool -> list N) : Prop :=
  forall a M, weakR C a M -> short M -> ok M -> acc_result C a = Some (D M).

Lemma pad_zeros_spec bb n : 0 < bb -> (n + pad_zeros bb n) mod bb = 0 /\ pad_zeros bb n < bb.
Proof.
  intros H. unfold pad_zeros. pose proof (Nat.mod_upper_bound n bb).
  destruct (Nat.eq_dec (n mod bb) 0) as [E|E].
  - rewrite E, Nat.sub_0_r, Nat.mod_same, Nat.add_0_r by lia. lia.
  - rewrite (Nat.mod_small (bb - n mod bb)) by lia. split; [|lia].
    rewrite <- Nat.add_mod_idemp_l by lia.
    replace (n mod bb + (bb - n mod bb)) with bb by lia. apply Nat.mod_same. lia.
Qed.

Lemma pad_zeros_unique bb n k : 0 < bb -> (n + k) mod bb = 0 -> k < bb -> pad_zeros bb n = k.
Proof.
  intros H Hk Hlt. destruct (pad_zeros_spec bb n H) as [H1 H2].
  set (z := pad_zeros bb n) in *. clearbody z.
  apply Nat.div_exact in Hk; [|lia]. apply Nat.div_exact in H1; [|lia].
  generalize dependent ((n + k) / bb). generalize dependent ((n + z) / bb). intros q1 E1 q2 E2.
  assert (q1 = q2) by nia. subst. lia.
Qed.

Section MD.
Context (e : endian) (w bw lb dw : nat) (iv : list N) (comp : list N -> list N -> list N)
        (padding : list N -> nat -> option (list N * nat)) (marker : list bool).
Notation C := (md_construction e w bw lb dw iv comp padding).
Notation bb := (w * bw).
Context (Hw8 : w mod 8 = 0) (Hw : 0 < w) (Hbw : 0 < bw).
Context (Hlb : 64 <= lb) (Hlw : lb mod w = 0) (Hw64 : w <= 64) (Hlbb : lb <= bb).
Context (Hpad : forall b seen, block_ok w bw b -> seen + length marker <= bb ->
  exists b1, padding b seen = Some (b1, seen + length marker) /\ block_ok w bw b1 /\
    stream e w b1 = firstn seen (stream e w b) ++ marker ++
                    repeat false (bb - (seen + length marker))).

Lemma md_wf : wf_construction C.
Proof. constructor; auto. Qed.

Lemma md_absorb bs : forall s cnt,
  absorb C s cnt bs = fold_left comp (map (words_of_stream e w) bs) s.
Proof. induction bs as [|b bs IH]; intros; cbn; [reflexivity|]. now rewrite IH. Qed.

Lemma md_absorbed M : absorbed C M = md_chain e w bw comp iv M.
Proof. unfold absorbed. rewrite md_absorb. reflexivity. Qed.

Lemma md_chain_app A B : length A mod bb = 0 ->
  md_chain e w bw comp iv (A ++ B) =
  fold_left comp (map (words_of_stream e w) (chunks bb B)) (md_chain e w bw comp iv A).
Proof.
  intros HA. unfold md_chain. rewrite chunks_app by nia. now rewrite map_app, fold_left_app.
Qed.

Lemma ltb64 : length_type_bits w lb = 64.
Proof.
  unfold length_type_bits. destruct (lb <? w) eqn:E1; [lia|]. destruct (64 <? lb) eqn:E2; lia.
Qed.

Lemma append_length_spec b len : block_ok w bw b ->
  exists b3, append_length e w bw lb b len = Some b3 /\ block_ok w bw b3 /\
    stream e w b3 = firstn (bb - lb) (stream e w b) ++ word_stream e lb len.
Proof.
  intros [Lb Fb]. unfold append_length.
  destruct (lb =? 0) eqn:E0; [lia|].
  assert (El : lb = w * (lb / w)) by (apply Nat.div_exact; lia).
  set (lw := lb / w) in *.
  assert (lw <= bw) by nia.
  destruct (lw <=? bw) eqn:E1; [|lia].
  assert (Hs : stream e lb [len] = word_stream e lb len) by (unfold stream; simpl; apply app_nil_r).
  assert (Hp : firstn lw (pack e e lb w [len]) = words_of_stream e w (word_stream e lb len)).
  { unfold pack. rewrite Hs. apply firstn_all2.
    rewrite words_of_stream_length, word_stream_length. fold lw. lia. }
  rewrite Hp. eexists. split; [reflexivity|].
  assert (L2 : length (words_of_stream e w (word_stream e lb len)) = lw).
  { rewrite words_of_stream_length, word_stream_length. reflexivity. }
  split.
  - split.
    + rewrite app_length, firstn_length, L2. lia.
    + apply Forall_app. split; [|apply words_of_stream_fits].
      apply Forall_forall. intros y Hy. eapply Forall_forall; [exact Fb|].
      rewrite <- (firstn_skipn (bw - lw) b). apply in_or_app. auto.
  - rewrite stream_app, <- stream_firstn. f_equal.
    + f_equal. nia.
    + apply stream_words_of_stream; auto. rewrite word_stream_length. exact Hlw.
Qed.

Lemma md_finish s block M1 T L :
  block_ok w bw block -> firstn (length T) (stream e w block) = T ->
  length M1 mod bb = 0 -> length T + length marker <= bb -> length T < bb ->
  s = md_chain e w bw comp iv M1 ->
  match padding block (length T) with
  | None => None
  | Some (b1, seen1) =>
      let '(s2, b2) := if bb <? seen1 + lb then (comp s b1, repeat 0%N bw) else (s, b1) in
      match append_length e w bw lb b2 L with
      | None => None
      | Some b3 =>
          let s3 := comp s2 b3 in
          Some (pack_from e w 8 (firstn dw s3))
      end
  end = Some (md_hash_as e w bw lb (w * dw) marker iv comp L (M1 ++ T)).
Proof.
  intros Hb Hh HM HT HT' Hs.
  assert (Hbb : 0 < bb) by nia.
  destruct (Hpad block (length T) Hb HT) as (b1 & E1 & Hb1 & S1).
  rewrite E1. rewrite Hh in S1.
  assert (Len : length (M1 ++ T) = length M1 + length T) by apply app_length.
  set (len := L).
  assert (Hout : forall s3, s3 = md_chain e w bw comp iv (md_pad_as e bb lb marker L (M1 ++ T)) ->
     Some (pack_from e w 8 (firstn dw s3)) = Some (md_hash_as e w bw lb (w * dw) marker iv comp L (M1 ++ T))).
  { intros s3 ->. unfold md_hash_as, pack_from, pack. now rewrite stream_firstn. }
  assert (HdM : length M1 = bb * (length M1 / bb)) by (apply Nat.div_exact; lia).
  destruct (bb <? length T + length marker + lb) eqn:E2.
  - (* the length goes into an extra block *)
    destruct (append_length_spec (repeat 0%N bw) len) as (b3 & E3 & Hb3 & S3);
      [apply block_ok_zeros|].
    rewrite E3. apply Hout. clear Hout.
    assert (Ek : pad_zeros bb (length (M1 ++ T) + length marker + lb) =
                 2 * bb - (length T + length marker + lb)).
    { apply pad_zeros_unique; auto; [|lia].
      replace (length (M1 ++ T) + length marker + lb + (2 * bb - (length T + length marker + lb)))
        with ((length M1 / bb + 2) * bb) by nia.
      apply Nat.mod_mul. lia. }
    unfold md_pad_as. rewrite Ek, <- app_assoc.
    rewrite md_chain_app by auto.
    replace (2 * bb - (length T + length marker + lb))
      with ((bb - (length T + length marker)) + (bb - lb)) by lia.
    rewrite repeat_app.
    replace (T ++ marker ++ (repeat false (bb - (length T + length marker)) ++ repeat false (bb - lb)) ++
             word_stream e lb L)
      with ((T ++ marker ++ repeat false (bb - (length T + length marker))) ++
            (repeat false (bb - lb) ++ word_stream e lb len)) by (now rewrite <- !app_assoc).
    rewrite <- S1.
    rewrite chunks_cons by (auto; now rewrite (block_stream_length e w bw) by auto).
    assert (S3' : stream e w b3 = repeat false (bb - lb) ++ word_stream e lb len).
    { rewrite S3, stream_zeros. f_equal.
      replace bb with ((bb - lb) + lb) at 2 by lia. rewrite repeat_app.
      apply firstn_app_exact. apply repeat_length. }
    rewrite <- S3'. rewrite chunks_single by (auto; now rewrite (block_stream_length e w bw) by auto).
    cbn [map fold_left].
    rewrite !(block_words_stream e w bw) by auto. now rewrite Hs.
  - destruct (append_length_spec b1 len) as (b3 & E3 & Hb3 & S3); auto.
    rewrite E3. apply Hout. clear Hout.
    assert (Ek : pad_zeros bb (length (M1 ++ T) + length marker + lb) =
                 bb - (length T + length marker + lb)).
    { apply pad_zeros_unique; auto; [|lia].
      replace (length (M1 ++ T) + length marker + lb + (bb - (length T + length marker + lb)))
        with ((length M1 / bb + 1) * bb) by nia.
      apply Nat.mod_mul. lia. }
    unfold md_pad_as. rewrite Ek, <- app_assoc.
    rewrite md_chain_app by auto.
    assert (S3' : stream e w b3 = T ++ marker ++ repeat false (bb - (length T + length marker + lb)) ++
                                  word_stream e lb len).
    { rewrite S3, S1.
      replace (bb - (length T + length marker)) with ((bb - (length T + length marker + lb)) + lb) by lia.
      rewrite repeat_app.
      set (Z := repeat false (bb - (length T + length marker + lb))).
      replace (T ++ marker ++ Z ++ repeat false lb) with ((T ++ marker ++ Z) ++ repeat false lb)
        by (now rewrite <- !app_assoc).
      rewrite firstn_app_exact; [now rewrite <- !app_assoc|].
      unfold Z. rewrite !app_length, repeat_length. lia. }
    unfold len in S3'. rewrite <- S3'.
    rewrite chunks_single by (auto; now rewrite (block_stream_length e w bw) by auto).
    cbn [map fold_left].
    rewrite !(block_words_stream e w bw) by auto. now rewrite Hs.
Qed.

Definition room (M : list bool) : Prop := length M mod bb + length marker <= bb.

(** For messages of every length, if blocks divide the counter's range. *)
Lemma md_digest_any a M : weakR C a M -> fine C M -> room M -> count M <> 0%N \/ M = [] ->
  acc_result C a = Some (md_hash_as e w bw lb (w * dw) marker iv comp (count M) M).
Proof.
  intros (M0 & T & -> & R & F) Hfine Hroom Hcnt. destruct R.
  assert (Hbb : 0 < bb) by nia.
  unfold acc_result. cbn [c_digest md_construction]. unfold md_digest.
  rewrite ltb64. rewrite rf_total.
  rewrite (N.mod_small (count (M0 ++ T))) by (apply N.mod_upper_bound, N.pow_nonzero; discriminate).
  rewrite rf_state.
  change (block_bits C) with bb in *. change (c_endian C) with e in *. change (c_word C) with w in *.
  change (c_words C) with bw in *.
  assert (HdM : length M0 = bb * (length M0 / bb)) by (apply Nat.div_exact; lia).
  assert (Eseen : N.to_nat (count (M0 ++ T) mod N.of_nat bb) = length (M0 ++ T) mod bb).
  { pose proof (count_mod C md_wf (M0 ++ T) Hfine) as Q. change (block_bits C) with bb in Q. rewrite Q. unfold blen. rewrite <- Nnat.Nat2N.inj_mod. apply Nnat.Nat2N.id. }
  rewrite Eseen.
  assert (Emod : length (M0 ++ T) mod bb = length T mod bb).
  { rewrite app_length, <- Nat.add_mod_idemp_l, rf_M0 by lia. reflexivity. }
  unfold room in Hroom. rewrite Emod in Hroom |- *.
  destruct (Nat.eq_dec (length T) bb) as [ET|ET].
  - assert (E0 : length T mod bb = 0) by (rewrite ET; apply Nat.mod_same; lia).
    rewrite E0 in Hroom |- *.
    assert (Hnz : (count (M0 ++ T) =? 0)%N = false).
    { destruct Hcnt as [Hcnt|Hcnt]; [lia|]. apply (f_equal (@length bool)) in Hcnt. rewrite app_length in Hcnt. cbn [length] in Hcnt. lia. }
    rewrite Hnz. cbn [negb andb Nat.eqb].
    pose proof (md_finish (comp (absorbed C M0) (cache a)) (cache a) (M0 ++ T) [] (count (M0 ++ T))) as X.
    rewrite (app_nil_r (M0 ++ T)) in X. cbn [length firstn] in X. apply X; auto; try lia.
    rewrite md_absorbed. rewrite md_chain_app by auto.
    rewrite chunks_single by auto. cbn [map fold_left]. f_equal.
    rewrite <- rf_head, ET.
    rewrite firstn_all2 by (rewrite (block_stream_length e w bw) by auto; lia).
    symmetry. apply (block_words_stream e w bw); auto.
  - assert (Hlt : length T < bb) by lia.
    rewrite (Nat.mod_small (length T)) in Hroom |- * by auto.
    assert (Hc : negb (count (M0 ++ T) =? 0)%N && (length T =? 0) = false).
    { destruct (length T =? 0) eqn:EZ; [|now rewrite andb_false_r].
      destruct T; [|discriminate]. rewrite rf_nil by auto. reflexivity. }
    rewrite Hc. apply md_finish; auto. apply md_absorbed.
Qed.

Lemma md_digest_correct :
  digest_correct C room (md_hash e w bw lb (w * dw) marker iv comp).
Proof.
  intros a M HR Hshort Hroom. rewrite (md_digest_any a M); auto.
  - rewrite count_short by exact Hshort. reflexivity.
  - rewrite count_short by exact Hshort. destruct M; [now right|left]. unfold blen. cbn [length]. lia.
Qed.

(** When the counter has come back to zero, a complete pending block is forgotten. *)
Lemma md_digest_lost a M0 T : refines C a M0 T -> length T = bb -> count (M0 ++ T) = 0%N -> length marker <= bb ->
  acc_result C a = Some (md_hash_as e w bw lb (w * dw) marker iv comp 0 M0).
Proof.
  intros R HT Hcnt Hm. destruct R.
  assert (Hbb : 0 < bb) by nia.
  unfold acc_result. cbn [c_digest md_construction]. unfold md_digest.
  rewrite ltb64, rf_total, Hcnt, rf_state.
  change (block_bits C) with bb in *. change (c_endian C) with e in *. change (c_word C) with w in *.
  change (c_words C) with bw in *.
  rewrite !N.mod_0_l by (first [apply N.pow_nonzero; discriminate | lia]).
  change (0 =? 0)%N with true. cbn [negb andb]. change (N.to_nat 0) with 0.
  pose proof (md_finish (absorbed C M0) (cache a) M0 [] 0%N) as X.
  rewrite (app_nil_r M0) in X. cbn [length firstn] in X. apply X; auto; try lia. apply md_absorbed.
Qed.
End MD.

(** The two paddings. *)
Section Padding.
Context (inj : injector) (e : endian) (w bw : nat).
Context (Hw8 : w mod 8 = 0) (Hw : 0 < w).
Context (HI : injector_contract e w bw inj).
Notation bb := (w * bw).

Lemma marker_word m : (m < 256)%N ->
  stream e w [hd 0%N (pack BOBB e 8 w (m :: repeat 0%N (w / 8 - 1)))] =
  word_stream BOBB 8 m ++ repeat false (w - 8).
Proof.
  intros Hm.
  assert (H8 : w = 8 * (w / 8)) by (apply Nat.div_exact; lia).
  assert (Es : stream BOBB 8 (m :: repeat 0%N (w / 8 - 1)) = word_stream BOBB 8 m ++ repeat false (w - 8)).
  { rewrite stream_cons, stream_zeros. f_equal. f_equal. lia. }
  assert (L : length (word_stream BOBB 8 m ++ repeat false (w - 8)) = w).
  { rewrite app_length, word_stream_length, repeat_length. lia. }
  unfold pack. rewrite Es. unfold words_of_stream. rewrite chunks_single by auto.
  cbn [map hd]. unfold stream. cbn [flat_map]. rewrite app_nil_r.
  apply word_stream_stream_word; auto.
Qed.

Lemma marker_word_fits m : fits w (hd 0%N (pack BOBB e 8 w (m :: repeat 0%N (w / 8 - 1)))).
Proof.
  pose proof (words_of_stream_fits e w (stream BOBB 8 (m :: repeat 0%N (w / 8 - 1)))) as F.
  unfold pack. destruct (words_of_stream e w _); cbn [hd].
  - unfold fits. apply N.neq_0_lt_0, N.pow_nonzero. lia.
  - now inversion F.
Qed.

(** [mb] leading bits of the marker octet, the rest of the octet being zero. *)
Lemma marker_padding_spec m mb mk b seen :
  (m < 256)%N -> mb <= 8 -> length mk = mb -> word_stream BOBB 8 m = mk ++ repeat false (8 - mb) ->
  block_ok w bw b -> seen + mb <= bb ->
  exists b1, marker_padding inj e w bw m mb b seen = Some (b1, seen + mb) /\ block_ok w bw b1 /\
    stream e w b1 = firstn seen (stream e w b) ++ mk ++ repeat false (bb - (seen + mb)).
Proof.
  intros Hm Hmb Lmk Emk Hb Hseen. unfold marker_padding.
  assert (Hge : 8 <= w) by lia.
  destruct (inject_fill e w bw inj Hw8 Hw HI (repeat 0%N bw) (bb - seen) b seen 0) as (b1 & E1 & Hb1 & S1); auto.
  - apply (block_ok_zeros w bw).
  - lia.
  - rewrite repeat_length. lia.
  - rewrite E1. cbn [skipn] in S1. rewrite stream_zeros, firstn_repeat in S1 by lia.
    assert (L1 : length (firstn seen (stream e w b)) = seen).
    { rewrite firstn_length, (block_stream_length e w bw) by auto. lia. }
    set (bow := hd 0%N (pack BOBB e 8 w (m :: repeat 0%N (w / 8 - 1)))).
    assert (Sb : stream e w [bow] = mk ++ repeat false (w - mb)).
    { unfold bow. rewrite marker_word by auto. rewrite Emk, <- app_assoc, <- repeat_app. f_equal. f_equal. lia. }
    destruct (inject_zero_tail e w bw inj Hw8 Hw HI [bow] mb b1 seen 0) as (b2 & E2 & Hb2 & S2); auto.
    + constructor; [|constructor]. apply marker_word_fits.
    + cbn [length]. lia.
    + rewrite S1, skipn_app, L1, skipn_all2 by lia. cbn [app].
      rewrite skipn_repeat. f_equal. lia.
    + rewrite Sb, skipn_app, skipn_all2 by lia. cbn [app length].
      rewrite skipn_repeat. f_equal. lia.
    + rewrite E2. exists b2. split; [reflexivity|]. split; [auto|].
      rewrite S2. cbn [skipn]. rewrite Sb, S1.
      rewrite (firstn_app_exact (firstn seen (stream e w b))) by auto.
      rewrite (firstn_app_exact mk) by auto. reflexivity.
Qed.

Lemma md_padding_spec b seen : block_ok w bw b -> seen + length one_marker <= bb ->
  exists b1, merkle_damgard_padding inj e w bw b seen = Some (b1, seen + length one_marker) /\
    block_ok w bw b1 /\
    stream e w b1 = firstn seen (stream e w b) ++ one_marker ++ repeat false (bb - (seen + length one_marker)).
Proof.
  intros. apply marker_padding_spec; auto; try reflexivity. cbn. lia.
Qed.

Lemma tiger_padding_spec b seen : block_ok w bw b -> seen + length tiger_marker <= bb ->
  exists b1, tiger_padding inj e w bw b seen = Some (b1, seen + length tiger_marker) /\
    block_ok w bw b1 /\
    stream e w b1 = firstn seen (stream e w b) ++ tiger_marker ++ repeat false (bb - (seen + length tiger_marker)).
Proof.
  intros. apply marker_padding_spec; auto; reflexivity.
Qed.
End Padding.
