(** Merkle-Damgard objects in every program: proofs. *)
From Coq Require Import NArith Arith List Bool Lia ZifyBool ZifyNat ZifyN ZArith.
From Verif Require Import SpecStream LStream SpecWords LWords SpecMD SpecMDOctets LAcc LMD LMDProps LMDStmt LGen LMDOctets.
From Verif Require Import MPack LInj MAcc MConstr SpecSha SpecRipemd SpecTiger SpecTigerTables SpecExtend LExtend SpecCollide LCollide SpecStore
  SpecObject MObject MObjects SpecAnyUse.
From Verif Require MMisc MSha MRipemd MTiger LSha LRipemd LTiger PSha.
Import ListNotations.
Ltac Zify.zify_post_hook ::= Z.div_mod_to_equations.

Lemma mod_octets total n bw : 0 < n -> 0 < bw -> (total mod 8 = 0)%N ->
  (total mod N.of_nat (8 * n * bw) = 8 * ((total / 8) mod N.of_nat (n * bw)))%N.
Proof.
  intros Hn Hb H8. replace (N.of_nat (8 * n * bw)) with (8 * N.of_nat (n * bw))%N by lia.
  assert (N.of_nat (n * bw) <> 0)%N by nia. rewrite N.mod_mul_r by (auto; discriminate). rewrite H8. apply N.add_0_l.
Qed.
Lemma mod_below x r : 0 < r -> N.to_nat (x mod N.of_nat r) < r.
Proof. intros H. pose proof (N.mod_upper_bound x (N.of_nat r)) as U. generalize dependent (x mod N.of_nat r)%N. intros m U. lia. Qed.
Lemma eight_room q r l : N.to_nat q < r -> l <= 8 -> N.to_nat (8 * q) + l <= 8 * r.
Proof. lia. Qed.

Section Chain.
Context (e : endian) (w bw : nat) (comp : list N -> list N -> list N) (Hw8 : w mod 8 = 0) (Hw : 0 < w) (Hbw : 0 < bw).
Notation bb := (w * bw).
Notation chain := (md_chain e w bw comp).
Lemma chain_app s A B : length A mod bb = 0 -> chain s (A ++ B) = chain (chain s A) B.
Proof. intros HA. unfold md_chain. rewrite chunks_app by nia. now rewrite map_app, fold_left_app. Qed.
Lemma process_chain s b : block_ok w bw b -> comp s b = chain s (stream e w b).
Proof.
  intros Hb. assert (Hbb : 0 < bb) by nia. unfold md_chain. rewrite chunks_single by (auto; now apply (block_stream_length e w bw)).
  cbn [map fold_left]. now rewrite (block_words_stream e w bw) by auto.
Qed.
End Chain.

(** ** The state that digest leaves, in bits *)
Section Bits.
Context (e : endian) (w bw lb dw : nat) (iv : list N) (comp : list N -> list N -> list N)
        (padding : list N -> nat -> option (list N * nat)) (marker : list bool).
Notation o := (md_object e w bw lb dw iv comp padding).
Notation bb := (w * bw).
Context (Hw8 : w mod 8 = 0) (Hw : 0 < w) (Hbw : 0 < bw).
Context (Hlb : 64 <= lb) (Hlw : lb mod w = 0) (Hw64 : w <= 64) (Hlbb : lb <= bb).
Context (Hpad : forall b seen, block_ok w bw b -> seen + length marker <= bb ->
  exists b1, padding b seen = Some (b1, seen + length marker) /\ block_ok w bw b1 /\
    stream e w b1 = firstn seen (stream e w b) ++ marker ++ repeat false (bb - (seen + length marker))).
Notation chain := (md_chain e w bw comp).

Definition tail_bits (k : nat) (L : N) : list bool :=
  marker ++ repeat false (pad_zeros bb (k + length marker + lb)) ++ word_stream e lb L.

(** Ending with [T], less than a block, from any state. *)
Lemma finish_state s block T L :
  block_ok w bw block -> firstn (length T) (stream e w block) = T -> length T + length marker <= bb -> length T < bb ->
  match padding block (length T) with
  | None => None
  | Some (b1, seen1) =>
      let '(s2, b2) := if bb <? seen1 + lb then (comp s b1, repeat 0%N bw) else (s, b1) in
      match append_length e w bw lb b2 L with
      | None => None
      | Some b3 => let s3 := comp s2 b3 in Some (s3, pack_from e w 8 (firstn dw s3))
      end
  end = Some (let s3 := chain s (T ++ tail_bits (length T) L) in (s3, pack_from e w 8 (firstn dw s3))).
Proof.
  intros Hb Hh HT HT'. assert (Hbb : 0 < bb) by nia.
  destruct (Hpad block (length T) Hb HT) as (b1 & E1 & Hb1 & S1). rewrite E1. rewrite Hh in S1.
  assert (Hout : forall s3, s3 = chain s (T ++ tail_bits (length T) L) ->
     Some (s3, pack_from e w 8 (firstn dw s3)) = Some (let s3 := chain s (T ++ tail_bits (length T) L) in (s3, pack_from e w 8 (firstn dw s3)))).
  { intros s3 ->. reflexivity. }
  destruct (bb <? length T + length marker + lb) eqn:E2.
  - destruct (append_length_spec e w bw lb dw comp padding marker Hw8 Hw Hbw Hlb Hlw Hw64 Hlbb Hpad (repeat 0%N bw) L) as (b3 & E3 & Hb3 & S3); [apply block_ok_zeros|].
    rewrite E3. cbv zeta. apply Hout. clear Hout.
    assert (Ek : pad_zeros bb (length T + length marker + lb) = 2 * bb - (length T + length marker + lb)).
    { apply pad_zeros_unique; auto; [|lia].
      replace (length T + length marker + lb + (2 * bb - (length T + length marker + lb))) with (2 * bb) by lia. apply Nat.mod_mul. lia. }
    unfold tail_bits. rewrite Ek.
    replace (2 * bb - (length T + length marker + lb)) with ((bb - (length T + length marker)) + (bb - lb)) by lia.
    rewrite repeat_app.
    replace (T ++ marker ++ (repeat false (bb - (length T + length marker)) ++ repeat false (bb - lb)) ++ word_stream e lb L)
      with ((T ++ marker ++ repeat false (bb - (length T + length marker))) ++ (repeat false (bb - lb) ++ word_stream e lb L))
      by (now rewrite <- !app_assoc).
    rewrite <- S1. unfold md_chain.
    rewrite chunks_cons by (auto; now rewrite (block_stream_length e w bw) by auto).
    assert (S3' : stream e w b3 = repeat false (bb - lb) ++ word_stream e lb L).
    { rewrite S3, stream_zeros. f_equal. replace bb with ((bb - lb) + lb) at 2 by lia. rewrite repeat_app.
      apply firstn_app_exact. apply repeat_length. }
    rewrite <- S3'. rewrite chunks_single by (auto; now rewrite (block_stream_length e w bw) by auto).
    cbn [map fold_left]. rewrite !(block_words_stream e w bw) by auto. reflexivity.
  - destruct (append_length_spec e w bw lb dw comp padding marker Hw8 Hw Hbw Hlb Hlw Hw64 Hlbb Hpad b1 L) as (b3 & E3 & Hb3 & S3); auto.
    rewrite E3. cbv zeta. apply Hout. clear Hout.
    assert (Ek : pad_zeros bb (length T + length marker + lb) = bb - (length T + length marker + lb)).
    { apply pad_zeros_unique; auto; [|lia].
      replace (length T + length marker + lb + (bb - (length T + length marker + lb))) with (1 * bb) by lia. apply Nat.mod_mul. lia. }
    unfold tail_bits. rewrite Ek.
    assert (S3' : stream e w b3 = T ++ marker ++ repeat false (bb - (length T + length marker + lb)) ++ word_stream e lb L).
    { rewrite S3, S1. replace (bb - (length T + length marker)) with ((bb - (length T + length marker + lb)) + lb) by lia.
      rewrite repeat_app. set (Z := repeat false (bb - (length T + length marker + lb))).
      replace (T ++ marker ++ Z ++ repeat false lb) with ((T ++ marker ++ Z) ++ repeat false lb) by (now rewrite <- !app_assoc).
      rewrite firstn_app_exact; [now rewrite <- !app_assoc|]. unfold Z. rewrite !app_length, repeat_length. lia. }
    rewrite <- S3'. unfold md_chain. rewrite chunks_single by (auto; now rewrite (block_stream_length e w bw) by auto).
    cbn [map fold_left]. rewrite !(block_words_stream e w bw) by auto. reflexivity.
Qed.

(** digest with any count; [used] of the block's bits are taken. *)
Definition bits_used (total : N) : nat :=
  if (total =? 0)%N then 0 else let k := N.to_nat (total mod N.of_nat bb) in if k =? 0 then bb else k.
Lemma digest_state s b total : block_ok w bw b -> (total < 2 ^ 64)%N -> N.to_nat (total mod N.of_nat bb) + length marker <= bb ->
  ob_digest o s b total =
  Some (let s3 := chain s (firstn (bits_used total) (stream e w b) ++ tail_bits (bits_used total) total) in
        (s3, pack_from e w 8 (firstn dw s3))).
Proof.
  intros Hb Ht Hroom. assert (Hbb : 0 < bb) by nia. cbn [ob_digest md_object].
  rewrite (ltb64 e w bw lb dw iv comp padding marker Hw8 Hw Hbw Hlb Hlw Hw64 Hlbb Hpad). rewrite (N.mod_small total) by exact Ht. cbv zeta.
  set (seen := N.to_nat (total mod N.of_nat bb)) in *.
  assert (Hs : seen < bb) by now apply mod_below.
  unfold bits_used. fold seen. pose proof (block_stream_length e w bw b Hb) as Lb.
  destruct (N.eqb_spec total 0) as [->|NZ].
  - assert (S0 : seen = 0) by (unfold seen; rewrite N.mod_0_l by lia; reflexivity). rewrite S0 in *.
    pose proof (finish_state s b [] 0 Hb eq_refl Hroom Hbb) as X. cbn [length negb andb firstn app] in X |- *. exact X.
  - destruct (Nat.eqb_spec seen 0) as [S0|S0]; cbn [negb andb].
    + rewrite S0 in *. rewrite firstn_all2 by lia.
      pose proof (finish_state (comp s b) b [] total Hb eq_refl Hroom Hbb) as X. cbn [length firstn app] in X. etransitivity; [exact X|].
      rewrite (chain_app e w bw comp Hw8 Hw Hbw s) by (rewrite Lb; apply Nat.mod_same; lia).
      assert (EC : chain s (stream e w b) = comp s b).
      { unfold md_chain. rewrite chunks_single by auto. cbn [map fold_left]. now rewrite (block_words_stream e w bw) by auto. }
      assert (ET : tail_bits 0 total = tail_bits bb total).
      { unfold tail_bits. do 3 f_equal. unfold pad_zeros. do 2 f_equal.
        replace (bb + length marker + lb) with (0 + length marker + lb + 1 * bb) by lia. symmetry. apply Nat.mod_add. lia. }
      rewrite EC, ET. reflexivity.
    + assert (LT : length (firstn seen (stream e w b)) = seen) by (rewrite firstn_length; lia).
      pose proof (finish_state s b (firstn seen (stream e w b)) total Hb) as X. rewrite LT in X. apply X; auto.
Qed.
End Bits.

(** ** In octets *)
Section Octets.
Context (h : published) (dw k : nat) (iv : list N) (comp : list N -> list N -> list N)
        (padding : list N -> nat -> option (list N * nat)) (mkb : list bool).
Notation e := (if big h then BOBB else LOBB).
Notation n := (word h).
Notation bw := (block h).
Notation lo := (len_field h).
Notation r := (n * bw).
Notation o := (md_object e (8 * n) bw (8 * lo) dw iv comp padding).
Context (Hn : 0 < n <= 8) (Hbw : 0 < bw) (Hlo : 8 <= lo <= r) (Hlw : lo mod n = 0) (Hm : fits 8 (mark h)) (Hmk : length mkb <= 8)
  (Hpadded : forall os, octets_bits (padded (big h) n bw lo (mark h) os) = md_pad e (8 * n * bw) (8 * lo) mkb (octets_bits os))
  (Hpad : forall b seen, block_ok (8 * n) bw b -> seen + length mkb <= 8 * n * bw ->
    exists b1, padding b seen = Some (b1, seen + length mkb) /\ block_ok (8 * n) bw b1 /\
      stream e (8 * n) b1 = firstn seen (stream e (8 * n) b) ++ mkb ++ repeat false (8 * n * bw - (seen + length mkb))).
Notation okS := (fun s : list N => length s = k /\ Forall (fits (8 * n)) s).
Context (Hk : dw <= k) (Hout : out h = n * dw) (Hiv : iv = init h) (Hinit : okS iv)
  (Hcomp : forall s b, okS s -> length b = bw /\ Forall (fits (8 * n)) b -> comp s b = compress h s b /\ okS (comp s b)).

Lemma ending_bits total : octets_bits (ending h total) = tail_bits e (8 * n) bw (8 * lo) mkb (8 * octets_used h total) total.
Proof.
  unfold ending, tail_bits. set (u := octets_used h total).
  pose proof (Hpadded (repeat 0%N u)) as E. unfold padded, md_pad in E. rewrite !octets_bits_app in E.
  apply app_inv_head in E. rewrite (length_field_bits (big h) lo), octets_bits_length, repeat_length in E.
  rewrite !app_assoc in E. apply app_inv_tail in E. cbv zeta. rewrite !octets_bits_app, !app_assoc, E. f_equal.
  rewrite <- (octets_in_order_stream e lo) by (destruct (big h); auto). rewrite octet_stream by (destruct (big h); auto).
  destruct (big h); reflexivity.
Qed.
Lemma used_le total : octets_used h total <= r.
Proof.
  unfold octets_used. destruct (total =? 0)%N; [lia|]. cbv zeta. set (q := N.to_nat _).
  assert (q < r) by (apply mod_below, Nat.mul_pos_pos; [exact (proj1 Hn)|exact Hbw]). clearbody q. destruct (q =? 0); lia.
Qed.
Lemma ending_length total : (octets_used h total + length (ending h total)) mod r = 0.
Proof.
  unfold ending. cbv zeta. rewrite !app_length, repeat_length. cbn [length].
  destruct (pad_zeros_spec r (octets_used h total + 1 + lo)) as [H _]; [nia|].
  replace (length (if big h then rev (octets_le lo total) else octets_le lo total)) with lo.
  2:{ destruct (big h); rewrite ?rev_length; symmetry; apply octets_le_length. }
  replace (octets_used h total + (1 + (pad_zeros r (octets_used h total + 1 + lo) + lo)))
    with (octets_used h total + 1 + lo + pad_zeros r (octets_used h total + 1 + lo)) by lia. exact H.
Qed.
Lemma ending_fits total : Forall (fits 8) (ending h total).
Proof.
  unfold ending. cbv zeta. rewrite !Forall_app. split; [auto|]. split.
  - apply Forall_forall. intros x Hx. apply repeat_spec in Hx. subst. reflexivity.
  - destruct (big h); [apply Forall_rev|]; apply octets_le_fits.
Qed.
Lemma to_octets_len b : length (to_octets (big h) n b) = n * length b.
Proof. apply (to_octets_length (big h) n bw ltac:(lia) Hbw). Qed.
Lemma finished_fits b total : Forall (fits 8) (finished h b total).
Proof. unfold finished. apply Forall_app. split; [apply Forall_firstn', to_octets_fits|apply ending_fits]. Qed.
Lemma finished_length b total : length b = bw -> length (finished h b total) mod r = 0.
Proof.
  intros L. unfold finished. rewrite app_length, firstn_length, to_octets_len, L, Nat.min_l by apply used_le. apply ending_length.
Qed.
Lemma bits_octets total : (total mod 8 = 0)%N -> bits_used (8 * n) bw total = 8 * octets_used h total.
Proof.
  intros H8. unfold bits_used, octets_used. destruct (total =? 0)%N eqn:E0; [reflexivity|]. cbv zeta.
  pose proof (mod_octets total n bw ltac:(lia) Hbw H8) as EM.
  rewrite EM. set (q := ((total / 8) mod N.of_nat r)%N). clearbody q. clear EM H8 E0. clear - Hn Hbw. replace (N.to_nat (8 * q)) with (8 * N.to_nat q) by lia.
  destruct (Nat.eqb_spec (8 * N.to_nat q) 0), (Nat.eqb_spec (N.to_nat q) 0); try lia.
Qed.
Lemma finished_bits b total : (total mod 8 = 0)%N ->
  octets_bits (finished h b total) =
  firstn (bits_used (8 * n) bw total) (stream e (8 * n) b) ++ tail_bits e (8 * n) bw (8 * lo) mkb (bits_used (8 * n) bw total) total.
Proof.
  intros H8. unfold finished. rewrite octets_bits_app, ending_bits, (bits_octets total H8). f_equal.
  rewrite <- octets_bits_firstn. f_equal. apply (to_octets_stream (big h)).
Qed.

(** The chaining value the model keeps and the published one. *)
Lemma state_ok P : Forall (fits 8) P ->
  md_chain e (8 * n) bw comp iv (octets_bits P) = chained h (init h) P /\ okS (chained h (init h) P).
Proof.
  intros F. assert (Q : Forall (fun b => length b = bw /\ Forall (fits (8 * n)) b) (map (to_words (big h) n) (chunks r P))).
  { apply Forall_map. pose proof (chunk_fits r (length P / r) P F) as K1.
    pose proof (chunks_Forall r P ltac:(nia)) as K2. unfold chunks in *.
    rewrite Forall_forall in *. intros c Hc. apply (to_words_ok (big h) n bw); auto; lia. }
  rewrite (chain_octets (big h) n bw ltac:(lia) Hbw) by exact F. unfold chained. rewrite <- Hiv. clear F.
  generalize Hinit. generalize iv as s. induction Q as [|b bs Hb Q IH]; intros s Hs; cbn [fold_left]; [auto|].
  destruct (Hcomp s b Hs Hb) as [E K]. rewrite <- E. apply IH. exact K.
Qed.
Lemma output_ok P : Forall (fits 8) P ->
  pack_from e (8 * n) 8 (firstn dw (chained h (init h) P)) = output h (chained h (init h) P).
Proof.
  intros F. destruct (state_ok P F) as [_ [L _]]. unfold output, pack_from, pack. rewrite <- stream_firstn.
  replace (8 * n * dw) with (8 * (n * dw)) by lia. rewrite Hout.
  apply (output_octets (big h) n bw ltac:(lia) Hbw). rewrite L. nia.
Qed.

Definition stands (P : nat -> option (list N)) (S : nat -> option (list N)) : Prop :=
  forall i, match P i, S i with
    | Some p, Some s => Forall (fits 8) p /\ length p mod r = 0 /\ s = md_chain e (8 * n) bw comp iv (octets_bits p)
    | None, None => True
    | _, _ => False
    end.
Lemma put_stands P S i p s : stands P S ->
  Forall (fits 8) p /\ length p mod r = 0 /\ s = md_chain e (8 * n) bw comp iv (octets_bits p) -> stands (put i p P) (put i s S).
Proof. intros M K j. unfold put. destruct (j =? i); [exact K|apply M]. Qed.
Lemma bits_mod P : length P mod r = 0 -> length (octets_bits P) mod (8 * n * bw) = 0.
Proof.
  intros H. rewrite octets_bits_length, <- Nat.mul_assoc, Nat.mul_mod_distr_l by nia. rewrite H. reflexivity.
Qed.
Lemma mod_add a b : a mod r = 0 -> b mod r = 0 -> (a + b) mod r = 0.
Proof. intros A B. rewrite <- Nat.add_mod_idemp_l, A by nia. exact B. Qed.

Lemma any_program cs : Forall (octet_arguments (8 * n) bw) cs ->
  forall P S, stands P S -> object_calls o (fun s => s) S cs = returns h P cs.
Proof.
  assert (W8 : (8 * n) mod 8 = 0) by lia. assert (W0 : 0 < 8 * n) by lia.
  assert (L64 : 64 <= 8 * lo) by lia. assert (W64 : 8 * n <= 64) by lia.
  assert (LW : (8 * lo) mod (8 * n) = 0) by (rewrite Nat.mul_mod_distr_l by lia; rewrite Hlw; reflexivity).
  assert (LBB : 8 * lo <= 8 * n * bw) by (rewrite <- Nat.mul_assoc; apply Nat.mul_le_mono_l; exact (proj2 Hlo)).
  assert (NEW : Forall (fits 8) [] /\ length (@nil N) mod r = 0 /\ iv = md_chain e (8 * n) bw comp iv (octets_bits [])).
  { split; [constructor|]. split; [apply Nat.mod_0_l; nia|]. unfold md_chain. change (octets_bits []) with (@nil bool). now rewrite chunks_nil. }
  induction cs as [|c cs IH]; intros HA P S M; [reflexivity|]. inversion HA as [|? ? [A1 A2] A3]; subst. specialize (IH A3).
  destruct c as [i|i b seen|i b total|i|i j|i j]; cbn [object_calls returns].
  - apply IH, put_stands; [exact M|exact NEW].
  - pose proof (M i) as Mi. destruct (P i) as [p|], (S i) as [s|]; try contradiction; [|reflexivity]. destruct Mi as (Fp & Lp & ->).
    destruct A1 as (Lb & Fb & _). apply IH, put_stands; [exact M|]. split; [|split].
    + apply Forall_app. split; [exact Fp|apply to_octets_fits].
    + rewrite app_length, to_octets_len, Lb. apply mod_add; [exact Lp|apply Nat.mod_same; nia].
    + cbn [ob_class md_object c_proc md_construction]. rewrite octets_bits_app, (to_octets_stream (big h)).
      rewrite (chain_app e (8 * n) bw comp W8 W0 Hbw) by now apply bits_mod.
      apply (process_chain e (8 * n) bw comp W8 W0 Hbw). now split.
  - pose proof (M i) as Mi. destruct (P i) as [p|], (S i) as [s|]; try contradiction; [|reflexivity]. destruct Mi as (Fp & Lp & ->).
    destruct A1 as (Lb & Fb & Ht).
    assert (Hroom : N.to_nat (total mod N.of_nat (8 * n * bw)) + length mkb <= 8 * n * bw).
    { rewrite (mod_octets total n bw ltac:(lia) Hbw A2). rewrite <- (Nat.mul_assoc 8). apply eight_room; [|exact Hmk].
      apply mod_below. apply Nat.mul_pos_pos; [exact (proj1 Hn)|exact Hbw]. }
    rewrite (digest_state e (8 * n) bw (8 * lo) dw iv comp padding mkb W8 W0 Hbw L64 LW W64 LBB Hpad _ b total (conj Lb Fb) Ht Hroom).
    cbv zeta. rewrite <- finished_bits by exact A2.
    rewrite <- (chain_app e (8 * n) bw comp W8 W0 Hbw) by now apply bits_mod.
    rewrite <- octets_bits_app. set (P' := p ++ finished h b total).
    assert (F' : Forall (fits 8) P') by (apply Forall_app; split; [exact Fp|apply finished_fits]).
    assert (L' : length P' mod r = 0) by (unfold P'; rewrite app_length; apply mod_add; [exact Lp|now apply finished_length]).
    destruct (state_ok P' F') as [E _].
    refine (eq_trans (f_equal (option_map _) (IH (put i P' P) (put i (md_chain e (8 * n) bw comp iv (octets_bits P')) S) _)) _).
    { apply put_stands; [exact M|auto]. }
    rewrite E, output_ok by exact F'. reflexivity.
  - pose proof (M i) as Mi. destruct (P i) as [p|], (S i) as [s|]; try contradiction; [|reflexivity]. apply IH, put_stands; [exact M|exact NEW].
  - pose proof (M i) as Mi. pose proof (M j) as Mj. destruct (P i) as [p|], (S i) as [s|]; try contradiction; [|reflexivity].
    destruct (P j) as [p'|], (S j) as [s'|]; try contradiction; [|reflexivity]. apply IH, put_stands; [exact M|exact Mi].
  - pose proof (M i) as Mi. destruct (P i) as [p|], (S i) as [s|]; try contradiction; [|reflexivity]. apply IH, put_stands; [exact M|exact Mi].
Qed.
End Octets.

(** ** The hashes of the library *)
Lemma dm_agrees n k cipher steps (Hn : 0 < n) :
  PSha.cipher_computes cipher (8 * n) k steps -> (forall key text, length text = k -> length (steps key text) = k) ->
  forall s b, length s = k /\ Forall (fits (8 * n)) s -> length b = 16 /\ Forall (fits (8 * n)) b ->
  MMisc.davies_meyer cipher (MMisc.state_adder (8 * n)) s b = feed_forward (N.of_nat (8 * n)) s (steps b s) /\
  (length (MMisc.davies_meyer cipher (MMisc.state_adder (8 * n)) s b) = k /\
   Forall (fits (8 * n)) (MMisc.davies_meyer cipher (MMisc.state_adder (8 * n)) s b)).
Proof.
  intros HC HL s b [Ls Fs] [Lb Fb].
  assert (E : MMisc.davies_meyer cipher (MMisc.state_adder (8 * n)) s b = feed_forward (N.of_nat (8 * n)) s (steps b s)).
  { unfold MMisc.davies_meyer. rewrite HC by auto. apply LSha.adder_combine. rewrite HL; auto. }
  rewrite E. split; [reflexivity|]. pose proof (feed_ok (N.of_nat (8 * n)) k s (steps b s) Ls (HL b s Ls)) as K.
  rewrite Nat2N.id in K. exact K.
Qed.

Ltac hash_case m k :=
  intros HI cs HA;
  match goal with |- object_calls (md_object _ _ _ _ ?dw ?iv ?comp ?padding) _ _ _ = returns ?h _ _ =>
    apply (fun a b c d e f g i j l p q t => any_program h dw k iv comp padding m a b c d e f g i j l p q t cs HA nothing nothing) end;
  cbn [big word block len_field mark init compress out];
  [lia|lia|lia|reflexivity|reflexivity|cbn; lia|intros; first [apply padded_one | apply padded_tiger]; lia
  |intros; first [apply md_padding_spec | apply tiger_padding_spec]; auto; lia|lia|reflexivity| | | |intros ?; exact I].
Definition all_programs (inj : injector) (o : object) (h : published) : Prop :=
  injector_contract (if big h then BOBB else LOBB) (8 * word h) (block h) inj ->
  forall cs, Forall (octet_arguments (8 * word h) (block h)) cs -> object_calls o (fun s => s) nothing cs = returns h nothing cs.
Ltac ok := split; [reflexivity|apply LSha.all_fit; reflexivity].
Theorem every_program inj o h : object_of inj o h -> all_programs inj o h.
Proof.
  intros H; destruct H as [cipher HC|cipher HC|cipher HC|cipher HC|cipher HC|cipher HC|cipher HC|cipher HC| | | | |p iv HT];
    unfold all_programs, dm_object, ripemd_object, tiger_object, dm, rmd; cbn [big word block].
  - hash_case one_marker 4; [reflexivity|ok|]. apply (dm_agrees 4 4 cipher md4_steps); [lia|exact HC|]. intros. now apply LSha.md4_steps_length.
  - hash_case one_marker 4; [reflexivity|ok|]. apply (dm_agrees 4 4 cipher md5_steps); [lia|exact HC|]. intros. now apply LSha.md5_steps_length.
  - hash_case one_marker 5; [reflexivity|ok|]. apply (dm_agrees 4 5 cipher sha0_steps); [lia|exact HC|]. intros. now apply LSha.sha1_steps_length.
  - hash_case one_marker 5; [reflexivity|ok|]. apply (dm_agrees 4 5 cipher sha1_steps); [lia|exact HC|]. intros. now apply LSha.sha1_steps_length.
  - hash_case one_marker 8; [exact LSha.iv_224|ok|]. apply (dm_agrees 4 8 cipher sha256_steps); [lia|exact HC|]. intros. now apply LSha.sha2_steps_length.
  - hash_case one_marker 8; [exact LSha.iv_256|ok|]. apply (dm_agrees 4 8 cipher sha256_steps); [lia|exact HC|]. intros. now apply LSha.sha2_steps_length.
  - hash_case one_marker 8; [exact LSha.iv_384|ok|]. apply (dm_agrees 8 8 cipher sha512_steps); [lia|exact HC|]. intros. now apply LSha.sha2_steps_length.
  - hash_case one_marker 8; [exact LSha.iv_512|ok|]. apply (dm_agrees 8 8 cipher sha512_steps); [lia|exact HC|]. intros. now apply LSha.sha2_steps_length.
  - hash_case one_marker 4; [reflexivity|ok|]. intros s b Hs _. now apply LRipemd.process128.
  - hash_case one_marker 5; [reflexivity|ok|]. intros s b Hs _. now apply LRipemd.process160.
  - hash_case one_marker 8; [reflexivity|ok|]. intros s b Hs _. now apply LRipemd.process256.
  - hash_case one_marker 10; [reflexivity|ok|]. intros s b Hs _. now apply LRipemd.process320.
  - assert (E : iv = SpecTiger.H0).
    { clear - HT. assert (Some iv = Some SpecTiger.H0) by (rewrite <- HT; reflexivity). congruence. }
    subst iv. hash_case tiger_marker 3; [reflexivity|ok|]. intros s b Hs Hb. now apply LTiger.process_spec.
Qed.
