(** The HAIFA construction with zero padding. *)
From Coq Require Import NArith Arith List Bool Lia ZifyBool ZifyNat ZifyN ZArith.
From Verif Require Import SpecStream LStream MPack LInj MAcc LAcc LBsp MConstr SpecMD LMD LMDProps.
Import ListNotations.
Ltac Zify.zify_post_hook ::= Z.div_mod_to_equations.

Section Haifa.
Context (e : endian) (w bw db : nat) (init : list N) (comp : list N -> list N -> N -> N -> list N)
        (salt : N) (inj : injector).
Context (Hw8 : w mod 8 = 0) (Hw : 0 < w) (Hbw : 0 < bw) (HI : injector_contract e w bw inj).
Notation bb := (w * bw).
Notation C := (haifa_construction e w bw db init comp (blake2b_padding inj w bw) salt).

Lemma haifa_wf : wf_construction C.
Proof. constructor; auto. Qed.

(** What the code computes; the last block of a message that fills it is compressed twice. *)
Definition haifa_out (M : list bool) : list N :=
  let n := length M in
  let r := n mod bb in
  let lastb := if (r =? 0) && negb (n =? 0) then skipn (n - bb) M
               else skipn (n - r) M ++ repeat false (bb - r) in
  firstn db (pack_from e w 8 (comp (absorbed C M) (words_of_stream e w lastb) (blen M) salt)).

Lemma firstn_words_ok k b : block_ok w bw b -> k <= bw -> block_ok w bw (firstn k b ++ repeat 0%N (bw - k)).
Proof.
  intros [L F] Hk. split.
  - rewrite app_length, firstn_length, repeat_length. lia.
  - apply Forall_app. split.
    + rewrite <- (firstn_skipn k b) in F. apply Forall_app in F. apply F.
    + apply (block_ok_zeros w (bw - k)).
Qed.

Lemma haifa_padding_spec M0 T b : block_ok w bw b -> firstn (length T) (stream e w b) = T ->
  length M0 mod bb = 0 -> length T < bb -> (T = [] -> M0 = []) -> short (M0 ++ T) ->
  exists b1, blake2b_padding inj w bw b (blen (M0 ++ T)) = Some b1 /\ block_ok w bw b1 /\
    stream e w b1 = T ++ repeat false (bb - length T).
Proof.
  intros Hb Hh HM HT Hnil Hs.
  assert (Hbb : 0 < bb) by nia.
  assert (EM : length M0 = bb * (length M0 / bb)) by (apply Nat.div_exact; lia).
  set (q := length M0 / bb) in *.
  assert (Emod : length (M0 ++ T) mod bb = length T).
  { rewrite app_length, <- Nat.add_mod_idemp_l, HM by lia. now apply Nat.mod_small. }
  assert (Ediv : (length (M0 ++ T) / w) mod bw = length T / w).
  { rewrite app_length, EM. replace (w * bw * q + length T) with (length T + (bw * q) * w) by lia.
    rewrite Nat.div_add by lia. replace (length T / w + bw * q) with (length T / w + q * bw) by lia.
    rewrite Nat.mod_add by lia. apply Nat.mod_small. apply Nat.div_lt_upper_bound; lia. }
  assert (Ewm : length (M0 ++ T) mod w = length T mod w).
  { rewrite app_length, EM. replace (w * bw * q + length T) with (length T + (bw * q) * w) by lia.
    apply Nat.mod_add. lia. }
  unfold blake2b_padding, blen.
  rewrite <- !Nnat.Nat2N.inj_mod, <- Nnat.Nat2N.inj_div, <- !Nnat.Nat2N.inj_mod, !Nnat.Nat2N.id.
  rewrite Emod, Ediv, Ewm.
  assert (Ec : ((N.of_nat (length (M0 ++ T)) =? 0)%N || negb (N.of_nat (length T) =? 0)%N) = true).
  { destruct T as [|t T]; [|cbn [length]; lia]. rewrite Hnil by auto. reflexivity. }
  rewrite Ec.
  assert (EqT : length T = w * (length T / w) + length T mod w) by (apply Nat.div_mod; lia).
  pose proof (Nat.mod_upper_bound (length T) w ltac:(lia)) as Hr.
  set (qt := length T / w) in *. set (rt := length T mod w) in *.
  assert (Hqt : qt < bw) by nia.
  destruct (N.of_nat rt =? 0)%N eqn:Z; cbn [negb].
  - assert (rt = 0) by lia. replace (qt + 0) with qt by lia.
    eexists. split; [reflexivity|]. split; [apply firstn_words_ok; auto; lia|].
    rewrite stream_app, stream_zeros, <- stream_firstn.
    replace (w * qt) with (length T) by lia. rewrite Hh. f_equal. f_equal. nia.
  - assert (Hb1 : block_ok w bw (firstn (qt + 1) b ++ repeat 0%N (bw - (qt + 1)))) by (apply firstn_words_ok; auto; lia).
    assert (S1 : stream e w (firstn (qt + 1) b ++ repeat 0%N (bw - (qt + 1))) =
                 firstn (w * (qt + 1)) (stream e w b) ++ repeat false (w * (bw - (qt + 1)))).
    { rewrite stream_app, stream_zeros, <- stream_firstn. reflexivity. }
    assert (Lf : length (firstn (w * (qt + 1)) (stream e w b)) = w * (qt + 1)).
    { rewrite firstn_length, (block_stream_length e w bw) by auto. nia. }
    destruct (inject_zero_tail e w bw inj Hw8 Hw HI [0%N] (w - rt)
       (firstn (qt + 1) b ++ repeat 0%N (bw - (qt + 1))) (length T) 0) as (r & E & Hrr & Sr); auto.
    + repeat constructor. unfold fits. apply N.neq_0_lt_0. apply N.pow_nonzero. lia.
    + nia.
    + cbn [length]. lia.
    + rewrite S1. rewrite skipn_app, Lf. rewrite skipn_all2 by lia. cbn [app].
      rewrite skipn_repeat. f_equal. nia.
    + assert (Z1 : stream e w [0%N] = repeat false w) by (rewrite (stream_zeros e w 1 : stream e w [0%N] = _); f_equal; lia).
      rewrite Z1, skipn_repeat. cbn [length]. f_equal. lia.
    + exists r. split; [exact E|]. split; [auto|]. rewrite Sr, S1.
      rewrite firstn_app, Lf. replace (length T - w * (qt + 1)) with 0 by lia. cbn [firstn]. rewrite app_nil_r.
      rewrite firstn_firstn, Nat.min_l by lia. rewrite Hh. f_equal.
      assert (Z1 : stream e w [0%N] = repeat false w) by (rewrite (stream_zeros e w 1 : stream e w [0%N] = _); f_equal; lia).
      rewrite Z1. cbn [skipn]. rewrite firstn_repeat by lia. rewrite <- repeat_app. f_equal. nia.
Qed.

Lemma haifa_digest_correct : digest_correct C (fun _ => True) haifa_out.
Proof.
  intros a M (M0 & T & -> & R & F) Hshort _. destruct R.
  assert (Hbb : 0 < bb) by nia.
  unfold acc_result. cbn [c_digest haifa_construction]. unfold haifa_digest.
  rewrite rf_total, (count_short _ Hshort), rf_state.
  change (block_bits C) with bb in *. change (c_endian C) with e in *. change (c_word C) with w in *.
  change (c_words C) with bw in *.
  assert (Emod : length (M0 ++ T) mod bb = length T mod bb).
  { rewrite app_length, <- Nat.add_mod_idemp_l, rf_M0 by lia. reflexivity. }
  unfold haifa_out. cbv zeta. rewrite Emod.
  destruct (Nat.eq_dec (length T) bb) as [ET|ET].
  - assert (E0 : length T mod bb = 0) by (rewrite ET; apply Nat.mod_same; lia).
    assert (En : length (M0 ++ T) <> 0) by (rewrite app_length; lia).
    assert (Hc : negb (blen (M0 ++ T) =? 0)%N && (blen (M0 ++ T) mod N.of_nat bb =? 0)%N = true).
    { unfold blen. rewrite <- Nnat.Nat2N.inj_mod, Emod, E0.
      destruct (N.of_nat (length (M0 ++ T)) =? 0)%N eqn:Q; [lia|reflexivity]. }
    rewrite Hc, E0. destruct (length (M0 ++ T) =? 0) eqn:Q; [lia|]. cbn [Nat.eqb negb andb].
    assert (Hp : ((blen (M0 ++ T) =? 0)%N || negb (blen (M0 ++ T) mod N.of_nat bb =? 0)%N) = false).
    { apply andb_true_iff in Hc. destruct Hc as [Hc1 Hc2]. rewrite Hc2. apply negb_true_iff in Hc1. now rewrite Hc1. }
    assert (Ep : blake2b_padding inj w bw (cache a) (blen (M0 ++ T)) = Some (cache a)).
    { unfold blake2b_padding. now rewrite Hp. }
    rewrite Ep.
    assert (EC : cache a = words_of_stream e w T).
    { rewrite <- rf_head, ET. rewrite firstn_all2 by (rewrite (block_stream_length e w bw) by auto; lia).
      symmetry. apply (block_words_stream e w bw); auto. }
    assert (Es : skipn (length (M0 ++ T) - bb) (M0 ++ T) = T).
    { rewrite app_length, ET. replace (length M0 + bb - bb) with (length M0) by lia.
      rewrite skipn_app, skipn_all, Nat.sub_diag. reflexivity. }
    rewrite Es, EC. rewrite (absorbed_snoc C haifa_wf M0 T), (count_short _ Hshort) by auto. reflexivity.
  - assert (Hlt : length T < bb) by lia.
    assert (Hc : negb (blen (M0 ++ T) =? 0)%N && (blen (M0 ++ T) mod N.of_nat bb =? 0)%N = false).
    { unfold blen. rewrite <- Nnat.Nat2N.inj_mod, Emod, Nat.mod_small by lia.
      destruct T as [|t T]; [|cbn [length]; lia]. rewrite rf_nil by auto. reflexivity. }
    rewrite Hc.
    destruct (haifa_padding_spec M0 T (cache a)) as (b1 & E1 & Hb1 & S1); auto.
    rewrite E1. rewrite (Nat.mod_small (length T)) by lia.
    assert (Hc2 : (length T =? 0) && negb (length (M0 ++ T) =? 0) = false).
    { destruct T as [|t T]; [|reflexivity]. rewrite rf_nil by auto. reflexivity. }
    rewrite Hc2.
    assert (Es : skipn (length (M0 ++ T) - length T) (M0 ++ T) = T).
    { rewrite app_length. replace (length M0 + length T - length T) with (length M0) by lia.
      rewrite skipn_app, skipn_all, Nat.sub_diag. reflexivity. }
    rewrite Es, <- S1. rewrite (block_words_stream e w bw) by auto.
    assert (Ea : absorbed C (M0 ++ T) = absorbed C M0).
    { unfold absorbed. change (block_bits C) with bb. rewrite chunks_app by auto.
      rewrite (chunks_lt bb T) by auto. now rewrite app_nil_r. }
    rewrite Ea. reflexivity.
Qed.
End Haifa.
