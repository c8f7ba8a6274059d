(** Corollaries for Merkle-Damgard hashes, and facts about the padding. *)
From Coq Require Import NArith Arith List Bool Lia ZifyBool ZifyNat ZifyN ZArith.
From Verif Require Import SpecStream LStream MPack LInj MAcc LAcc LBsp MConstr SpecMD LMD.
Import ListNotations.
Ltac Zify.zify_post_hook ::= Z.div_mod_to_equations.

Lemma init_weak C (WF : wf_construction C) junk :
  block_ok (c_word C) (c_words C) junk -> weakR C (acc_init C junk) [].
Proof. intros. apply strict_weak, init_strict; auto. Qed.

Section Instances.
Context (e : endian) (w bw lb dw : nat) (iv : list N) (comp : list N -> list N -> list N).
Context (inj : injector).
Context (MP : md_params w bw lb) (HI : injector_contract e w bw inj).

Definition mdC := md_construction e w bw lb dw iv comp (merkle_damgard_padding inj e w bw).
Definition tgC := md_construction e w bw lb dw iv comp (tiger_padding inj e w bw).

Lemma mdC_wf : wf_construction mdC.
Proof. destruct MP. apply md_wf; lia. Qed.
Lemma tgC_wf : wf_construction tgC.
Proof. destruct MP. apply md_wf; lia. Qed.

Lemma mdC_correct : digest_correct mdC (fun _ => True) (md_hash e w bw lb (w * dw) one_marker iv comp).
Proof.
  destruct MP. intros a M HR Hs _.
  apply (md_digest_correct e w bw lb dw iv comp _ one_marker); auto; try lia.
  - intros. apply md_padding_spec; auto; lia.
  - unfold room. cbn. pose proof (Nat.mod_upper_bound (length M) (w * bw)). nia.
Qed.

Lemma tgC_correct : digest_correct tgC (fun M => length M mod 8 = 0)
  (md_hash e w bw lb (w * dw) tiger_marker iv comp).
Proof.
  destruct MP. intros a M HR Hs H8.
  apply (md_digest_correct e w bw lb dw iv comp _ tiger_marker); auto; try lia.
  - intros. apply tiger_padding_spec; auto; lia.
  - unfold room. cbn [length tiger_marker].
    assert (w * bw <> 0) by nia.
    pose proof (Nat.mod_upper_bound (length M) (w * bw)).
    assert ((length M mod (w * bw)) mod 8 = 0).
    { assert (Hw : w = 8 * (w / 8)) by (apply Nat.div_exact; lia).
      set (k := w / 8) in *. rewrite Hw. rewrite <- Nat.mul_assoc.
      rewrite Nat.mod_mul_r by nia.
      rewrite H8, Nat.add_0_l, Nat.mul_comm, Nat.mod_mul; lia. }
    assert ((w * bw) mod 8 = 0).
    { rewrite <- Nat.mul_mod_idemp_l, mp_w8 by lia. reflexivity. }
    lia.
Qed.
End Instances.

(** Running pieces from a fresh accumulator. *)
Lemma pieces_result C inj (WF : wf_construction C)
  (HI : injector_contract (c_endian C) (c_word C) (c_words C) inj) ok D
  (DC : digest_correct C ok D) junk ps :
  block_ok (c_word C) (c_words C) junk -> Forall (piece_ok C) ps -> short (pieces_bits C ps) ->
  ok (pieces_bits C ps) ->
  exists a, hash_pieces C inj (acc_init C junk) ps = Some a /\
            acc_result C a = Some (D (pieces_bits C ps)).
Proof.
  intros Hj Hp Hs Hok.
  destruct (hash_pieces_R C inj WF HI ps (acc_init C junk) []) as (a & E & R); auto.
  { now apply init_strict. }
  exists a. split; auto. apply DC; auto. now apply strict_weak.
Qed.

Lemma once_result C inj (WF : wf_construction C)
  (HI : injector_contract (c_endian C) (c_word C) (c_words C) inj) ok D
  (DC : digest_correct C ok D) junk vb xs :
  block_ok (c_word C) (c_words C) junk -> piece_ok C (vb, xs) ->
  short (stream (c_host C) vb xs) -> ok (stream (c_host C) vb xs) ->
  hash_once C inj vb junk xs = Some (D (stream (c_host C) vb xs)).
Proof.
  intros Hj Hp Hs Hok.
  destruct (pieces_result C inj WF HI ok D DC junk [(vb, xs)]) as (a & E & R); auto.
  - unfold pieces_bits. cbn. now rewrite app_nil_r.
  - unfold pieces_bits. cbn. now rewrite app_nil_r.
  - unfold hash_once. cbn [hash_pieces] in E.
    destruct (hash_into C inj vb (acc_init C junk) xs); [|discriminate].
    injection E as ->. rewrite R. unfold pieces_bits. cbn. now rewrite app_nil_r.
Qed.

(** Octets read the same in both "big bit" orders. *)
Lemma octet_stream_LOBB os : stream LOBB 8 os = octets_bits os.
Proof.
  unfold octets_bits, stream. apply flat_map_ext. intros x. unfold word_stream.
  apply map_ext_in. intros i Hi. apply in_seq in Hi.
  do 8 (destruct i as [|i]; [reflexivity|]). lia.
Qed.

Lemma octet_stream e os : e = BOBB \/ e = LOBB -> stream e 8 os = octets_bits os.
Proof. intros [->| ->]; [reflexivity|apply octet_stream_LOBB]. Qed.

(** Padding facts *)
Section Pad.
Context (e : endian) (bb lb : nat) (mk : list bool).

Lemma md_pad_length M :
  length (md_pad e bb lb mk M) =
  length M + length mk + lb + pad_zeros bb (length M + length mk + lb).
Proof. unfold md_pad. rewrite !app_length, repeat_length, word_stream_length. lia. Qed.

Context (Hbb : 0 < bb).

Lemma md_pad_mod M : length (md_pad e bb lb mk M) mod bb = 0.
Proof. rewrite md_pad_length. now apply pad_zeros_spec. Qed.

Lemma md_pad_blocks M : 1 <= bb ->
  length (chunks bb (md_pad e bb lb mk M)) = (length M + length mk + lb + (bb - 1)) / bb.
Proof.
  intros _. rewrite chunks_length, md_pad_length.
  set (n := length M + length mk + lb).
  destruct (pad_zeros_spec bb n) as [H1 H2]; auto. set (z := pad_zeros bb n) in *. clearbody z.
  apply Nat.div_exact in H1; [|lia].
  set (q := (n + z) / bb) in *. clearbody q.
  apply Nat.div_unique with (r := bb - 1 - z); nia.
Qed.
End Pad.

Lemma word_stream_inj e w x y : w mod 8 = 0 -> fits w x -> fits w y ->
  word_stream e w x = word_stream e w y -> x = y.
Proof.
  intros H8 Hx Hy E. rewrite <- (stream_word_word_stream e w x), <- (stream_word_word_stream e w y) by auto.
  now rewrite E.
Qed.

Lemma app_inj_tail_len {A} (a b c d : list A) : length b = length d -> a ++ b = c ++ d -> a = c /\ b = d.
Proof.
  intros L E.
  assert (length a = length c).
  { apply (f_equal (@length A)) in E. rewrite !app_length in E. lia. }
  revert c H E. induction a as [|x a IH]; intros [|y c] H E; simpl in *; try lia; auto.
  injection E as -> E. destruct (IH c) as [-> ->]; auto.
Qed.

Lemma md_pad_tail_eq e lb (M1 M2 X1 X2 : list bool) :
  lb mod 8 = 0 -> 64 <= lb -> short M1 -> short M2 ->
  X1 ++ word_stream e lb (N.of_nat (length M1)) = X2 ++ word_stream e lb (N.of_nat (length M2)) ->
  length M1 = length M2 /\ X1 = X2.
Proof.
  intros H8 Hlb S1 S2 E. apply app_inj_tail_len in E; [|now rewrite !word_stream_length].
  destruct E as [E1 E2]. apply word_stream_inj in E2; auto.
  - split; [|auto]. lia.
  - unfold fits, short, blen in *. eapply N.lt_le_trans; [exact S1|]. apply N.pow_le_mono_r; lia.
  - unfold fits, short, blen in *. eapply N.lt_le_trans; [exact S2|]. apply N.pow_le_mono_r; lia.
Qed.

Lemma md_pad_inj e bb lb mk M1 M2 : lb mod 8 = 0 -> 64 <= lb -> short M1 -> short M2 ->
  md_pad e bb lb mk M1 = md_pad e bb lb mk M2 -> M1 = M2.
Proof.
  intros H8 Hlb S1 S2 E. unfold md_pad in E.
  rewrite !app_assoc in E.
  destruct (md_pad_tail_eq e lb M1 M2 _ _ H8 Hlb S1 S2 E) as (L & E').
  rewrite L in E'. rewrite <- !app_assoc in E'.
  apply app_inj_tail_len in E'; [tauto|]. now rewrite !app_length.
Qed.

(** Merkle-Damgard: a collision of the chain is a collision of the compression function. *)
Lemma comp_calls_app comp l1 : forall l2 s, comp_calls comp s (l1 ++ l2) = comp_calls comp s l1 ++ comp_calls comp (fold_left comp l1 s) l2.
Proof. induction l1 as [|b l1 IH]; intros l2 s; cbn [app comp_calls fold_left]; [reflexivity|]. now rewrite IH. Qed.
Lemma comp_calls_last comp l b s : In (fold_left comp l s, b) (comp_calls comp s (l ++ [b])).
Proof. rewrite comp_calls_app. apply in_or_app. right. now left. Qed.
Lemma collision_among_app comp c c' d d' : collision_among comp c c' -> collision_among comp (c ++ d) (c' ++ d').
Proof.
  intros (s & b & s' & b' & I1 & I2 & H). exists s, b, s', b'. split; [|split; [|exact H]]; apply in_or_app; now left.
Qed.
Lemma fold_collision (comp : list N -> list N -> list N) : forall l1 l2 s1 s2,
  length l1 = length l2 -> (s1, l1) <> (s2, l2) -> fold_left comp l1 s1 = fold_left comp l2 s2 ->
  collision_among comp (comp_calls comp s1 l1) (comp_calls comp s2 l2) \/ l1 = [].
Proof.
  intros l1. induction l1 as [|b1 l1 IH] using rev_ind; intros l2 s1 s2 L Hne E; [now right|left].
  destruct l2 as [|b2 l2 _] using rev_ind.
  { rewrite app_length in L. simpl in L. lia. }
  rewrite !fold_left_app in E. cbn [fold_left] in E.
  rewrite !app_length in L. simpl in L.
  pose proof (comp_calls_last comp l1 b1 s1) as C1. pose proof (comp_calls_last comp l2 b2 s2) as C2.
  set (t1 := fold_left comp l1 s1) in *. set (t2 := fold_left comp l2 s2) in *.
  assert (Hdec : {(t1, b1) = (t2, b2)} + {(t1, b1) <> (t2, b2)}).
  { decide equality; apply list_eq_dec; apply N.eq_dec. }
  destruct Hdec as [Heq|Hneq].
  - injection Heq as Ht Hb. subst b2.
    destruct (IH l2 s1 s2) as [K| ->]; auto; try lia.
    + intros X. injection X as -> ->. apply Hne. reflexivity.
    + rewrite !comp_calls_app. now apply collision_among_app.
    + destruct l2; [|simpl in L; lia]. exfalso. apply Hne. cbn in t1, t2. subst t1 t2. now rewrite Ht.
  - exists t1, b1, t2, b2. auto.
Qed.

Lemma chunks_inj {A} n (a b : list A) : 0 < n -> length a mod n = 0 -> length b mod n = 0 ->
  chunks n a = chunks n b -> a = b.
Proof.
  intros Hn Ha Hb E. rewrite <- (chunks_concat n a), <- (chunks_concat n b) by auto. now rewrite E.
Qed.

Lemma words_chunks_inj e w bw a b : w mod 8 = 0 -> 0 < w -> 0 < bw ->
  length a mod (w * bw) = 0 -> length b mod (w * bw) = 0 ->
  map (words_of_stream e w) (chunks (w * bw) a) = map (words_of_stream e w) (chunks (w * bw) b) -> a = b.
Proof.
  intros H8 Hw Hbw Ha Hb E. apply (chunks_inj (w * bw)); auto; [nia|].
  assert (Fa : Forall (fun c => length c = w * bw) (chunks (w * bw) a)) by (apply chunks_Forall; nia).
  assert (Fb : Forall (fun c => length c = w * bw) (chunks (w * bw) b)) by (apply chunks_Forall; nia).
  revert E Fa Fb. generalize (chunks (w * bw) a) as la. generalize (chunks (w * bw) b) as l2. clear Ha Hb a b.
  intros l2 la. revert l2. induction la as [|x la IH]; intros [|y lb'] E Fa Fb; cbn in E; try discriminate; auto.
  inversion Fa; inversion Fb; subst. injection E as E1 E2. f_equal; auto.
  rewrite <- (block_stream_words e w bw x), <- (block_stream_words e w bw y) by auto. now rewrite E1.
Qed.

Lemma last_block_suffix e w bw A T : w mod 8 = 0 -> 0 < w -> 0 < bw ->
  length A mod (w * bw) = 0 -> length T = w * bw ->
  map (words_of_stream e w) (chunks (w * bw) (A ++ T)) =
  map (words_of_stream e w) (chunks (w * bw) A) ++ [words_of_stream e w T].
Proof. intros. rewrite chunks_snoc by (auto; nia). now rewrite map_app. Qed.

Lemma split_last {A} n (P : list A) : 0 < n -> length P mod n = 0 -> P <> [] ->
  exists A T, P = A ++ T /\ length A mod n = 0 /\ length T = n.
Proof.
  intros Hn Hm Hne. apply Nat.div_exact in Hm; [|lia].
  set (q := length P / n) in *.
  assert (q <> 0). { intros Z. rewrite Z, Nat.mul_0_r in Hm. destruct P; [congruence|discriminate]. }
  exists (firstn (n * (q - 1)) P), (skipn (n * (q - 1)) P).
  split; [now rewrite firstn_skipn|]. rewrite firstn_length, skipn_length. split; [|nia].
  rewrite Nat.min_l by nia. rewrite Nat.mul_comm. apply Nat.mod_mul. lia.
Qed.

Lemma md_collision e w bw lb mk iv comp M1 M2 :
  w mod 8 = 0 -> 0 < w -> 0 < bw -> lb mod 8 = 0 -> 64 <= lb <= w * bw -> short M1 -> short M2 ->
  M1 <> M2 ->
  md_chain e w bw comp iv (md_pad e (w * bw) lb mk M1) =
  md_chain e w bw comp iv (md_pad e (w * bw) lb mk M2) ->
  collision_among comp (md_comp_calls e w bw lb mk iv comp M1) (md_comp_calls e w bw lb mk iv comp M2).
Proof.
  intros H8 Hw Hbw Hl8 Hlb S1 S2 Hne E.
  assert (Hbb : 0 < w * bw) by nia.
  unfold md_comp_calls. set (bb := w * bw) in *.
  set (P1 := md_pad e bb lb mk M1) in *. set (P2 := md_pad e bb lb mk M2) in *.
  assert (N1 : P1 <> []). { intros Z. apply (f_equal (@length bool)) in Z. unfold P1 in Z. rewrite md_pad_length in Z. simpl in Z. lia. }
  assert (N2 : P2 <> []). { intros Z. apply (f_equal (@length bool)) in Z. unfold P2 in Z. rewrite md_pad_length in Z. simpl in Z. lia. }
  pose proof (md_pad_mod e bb lb mk Hbb M1) as Q1. pose proof (md_pad_mod e bb lb mk Hbb M2) as Q2.
  fold P1 in Q1. fold P2 in Q2.
  destruct (Nat.eq_dec (length M1) (length M2)) as [EL|NL].
  - unfold md_chain in E.
    destruct (fold_collision comp (map (words_of_stream e w) (chunks bb P1))
                             (map (words_of_stream e w) (chunks bb P2)) iv iv) as [?|Z]; auto.
    + rewrite !map_length, !chunks_length. unfold P1, P2. rewrite !md_pad_length, EL. reflexivity.
    + intros X. injection X as X. apply Hne.
      apply (words_chunks_inj e w bw) in X; auto.
      apply md_pad_inj in X; auto; lia.
    + exfalso. apply (f_equal (@length _)) in Z. rewrite map_length, chunks_length in Z. simpl in Z.
      apply Nat.div_exact in Q1; [|lia]. rewrite Z, Nat.mul_0_r in Q1.
      destruct P1; [congruence|discriminate].
  - destruct (split_last bb P1) as (A1 & T1 & EP1 & LA1 & LT1); auto.
    destruct (split_last bb P2) as (A2 & T2 & EP2 & LA2 & LT2); auto.
    unfold md_chain in E. fold bb in E. rewrite EP1, EP2 in E.
    rewrite EP1, EP2, !chunks_snoc, !map_app by auto. cbn [map].
    rewrite !chunks_snoc in E by auto. rewrite !map_app, !fold_left_app in E. cbn [map fold_left] in E.
    eexists _, _, _, _. split; [apply comp_calls_last|]. split; [apply comp_calls_last|]. split; [|exact E].
    intros X. injection X as X1 X2.
    assert (T1 = T2).
    { rewrite <- (block_stream_words e w bw T1), <- (block_stream_words e w bw T2) by auto. now rewrite X2. }
    subst T2. apply NL.
    (* the last lb bits of both are equal *)
    assert (Hs : forall M A, md_pad e bb lb mk M = A ++ T1 ->
              exists Y, T1 = Y ++ word_stream e lb (N.of_nat (length M))).
    { intros M A EM. exists (firstn (bb - lb) T1).
      rewrite <- (firstn_skipn (bb - lb) T1) in EM |- * at 1. f_equal.
      unfold md_pad in EM. rewrite !app_assoc in EM.
      apply app_inj_tail_len in EM; [symmetry; apply EM|].
      rewrite word_stream_length, skipn_length. lia. }
    destruct (Hs M1 A1 EP1) as [Y1 EY1]. destruct (Hs M2 A2 EP2) as [Y2 EY2].
    rewrite EY1 in EY2.
    destruct (md_pad_tail_eq e lb M1 M2 Y1 Y2) as (L & _); auto. lia.
Qed.
