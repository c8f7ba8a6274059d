(** BLAKE2b: the model's compression function is that of RFC 7693, the digest, bijectivity. *)
From Coq Require Import NArith Arith List Bool Lia ZifyBool ZifyNat ZifyN ZArith.
From Verif Require Import SpecStream LStream MPack LInj MAcc LAcc LBsp MConstr SpecMD LMD LMDProps LHaifa.
From Verif Require Import SpecWords LWords SpecBlake2b MBlake2b.
Import ListNotations.
Ltac Zify.zify_post_hook ::= Z.div_mod_to_equations.
Local Open Scope N_scope.

Notation ok64 := (fits 64).

Lemma ok64_lt x : ok64 x <-> x < 2 ^ 64.
Proof. reflexivity. Qed.

Lemma lxor_ok w x y : fits w x -> fits w y -> fits w (N.lxor x y).
Proof.
  unfold fits. intros Hx Hy. destruct (N.eq_dec (N.lxor x y) 0) as [->|Hn].
  - apply N.neq_0_lt_0. apply N.pow_nonzero. lia.
  - apply N.log2_lt_pow2; [lia|].
    destruct (N.eq_dec x 0) as [->|Zx]; [rewrite N.lxor_0_l in *; apply N.log2_lt_pow2; lia|].
    destruct (N.eq_dec y 0) as [->|Zy]; [rewrite N.lxor_0_r in *; apply N.log2_lt_pow2; lia|].
    apply N.log2_lt_pow2 in Hx; [|lia]. apply N.log2_lt_pow2 in Hy; [|lia].
    eapply N.le_lt_trans; [apply N.log2_lxor|]. apply N.max_lub_lt; auto.
Qed.

Lemma mod_ok x : ok64 (x mod 2 ^ 64).
Proof. apply N.mod_lt. discriminate. Qed.

(** Bits of a rotation. *)
Lemma rotr_disjoint x k : ok64 x -> 0 < k < 64 ->
  N.land (N.shiftr x k) (N.shiftl x (64 - k) mod 2 ^ 64) = 0.
Proof.
  intros Hx Hk. apply N.bits_inj. intros i. rewrite N.land_spec, N.bits_0, N.shiftr_spec by lia.
  destruct (N.ltb_spec i (64 - k)).
  - destruct (N.ltb_spec i 64); [|lia]. rewrite N.mod_pow2_bits_low by lia.
    rewrite N.shiftl_spec_low by lia. apply andb_false_r.
  - replace (N.testbit x (i + k)) with false; [reflexivity|]. symmetry.
    replace (i + k) with (N.of_nat (N.to_nat (i + k))) by lia. apply (testbit_high 64); auto. lia.
Qed.

Lemma rotr_same x k : ok64 x -> 0 < k < 64 -> rotr 64 k x = rotr64 x k.
Proof. intros Hx Hk. unfold rotr, rotr64. symmetry. apply N.lxor_lor, rotr_disjoint; auto. Qed.

Lemma rotr_ok x k : ok64 x -> 0 < k < 64 -> ok64 (rotr 64 k x).
Proof.
  intros Hx Hk. rewrite rotr_same by auto. unfold rotr64. apply lxor_ok; [|apply mod_ok].
  unfold fits in *. rewrite N.shiftr_div_pow2. eapply N.le_lt_trans; [|exact Hx].
  apply N.div_le_upper_bound; [apply N.pow_nonzero; lia|]. assert (2 ^ k <> 0) by (apply N.pow_nonzero; lia). nia.
Qed.

(** The specification's G on the four values. *)
Definition gs (a b c d x y : N) : N * N * N * N :=
  let a := add64 (add64 a b) x in
  let d := rotr64 (N.lxor d a) 32 in
  let c := add64 c d in
  let b := rotr64 (N.lxor b c) 24 in
  let a := add64 (add64 a b) y in
  let d := rotr64 (N.lxor d a) 16 in
  let c := add64 c d in
  let b := rotr64 (N.lxor b c) 63 in
  (a, b, c, d).

Lemma plus64_ok x y : ok64 (plus64 x y).
Proof. apply mod_ok. Qed.

Lemma g_same a b c d x y : ok64 b -> ok64 d -> g a b c d x y = gs a b c d x y.
Proof.
  intros Hb Hd. unfold g, gs. change add64 with plus64.
  assert (H1 : forall a, ok64 (N.lxor d (plus64 a x))) by (intros; apply lxor_ok; auto; apply plus64_ok).
  cbv zeta. rewrite !(rotr_same (N.lxor d _)) by (try lia; apply H1).
  set (d1 := rotr64 (N.lxor d _) 32).
  assert (Hd1 : ok64 d1) by (unfold d1; rewrite <- rotr_same by (try lia; apply H1); apply rotr_ok; [apply H1|lia]).
  rewrite !(rotr_same (N.lxor b _)) by (try lia; apply lxor_ok; auto; apply plus64_ok).
  set (b1 := rotr64 (N.lxor b _) 24).
  assert (Hb1 : ok64 b1).
  { unfold b1. rewrite <- rotr_same by (try lia; apply lxor_ok; auto; apply plus64_ok).
    apply rotr_ok; [apply lxor_ok; auto; apply plus64_ok|lia]. }
  rewrite !(rotr_same (N.lxor d1 _)) by (try lia; apply lxor_ok; auto; apply plus64_ok).
  rewrite !(rotr_same (N.lxor b1 _)) by (try lia; apply lxor_ok; auto; apply plus64_ok).
  reflexivity.
Qed.

Lemma g_ok a b c d x y : ok64 b -> ok64 d ->
  let '(a', b', c', d') := g a b c d x y in ok64 a' /\ ok64 b' /\ ok64 c' /\ ok64 d'.
Proof.
  intros Hb Hd. unfold g. cbv zeta.
  assert (K : forall x y k, ok64 x -> 0 < k < 64 -> forall z, ok64 (rotr 64 k (N.lxor x (plus64 y z)))).
  { intros. apply rotr_ok; auto. apply lxor_ok; auto. apply plus64_ok. }
  repeat split; try apply plus64_ok.
  - apply K; [|lia]. apply K; [auto|lia].
  - apply K; [|lia]. apply K; [auto|lia].
Qed.

Ltac case_g :=
  match goal with
  | |- context [gs ?a ?b ?c ?d ?x ?y] =>
      rewrite <- (g_same a b c d x y) by auto;
      let Q := fresh "Q" in
      pose proof (g_ok a b c d x y ltac:(auto) ltac:(auto)) as Q;
      destruct (g a b c d x y) as [[[? ?] ?] ?]; destruct Q as (? & ? & ? & ?)
  end.

Section GL.
Variables v0 v1 v2 v3 v4 v5 v6 v7 v8 v9 v10 v11 v12 v13 v14 v15 x y : N.
Notation V := [v0; v1; v2; v3; v4; v5; v6; v7; v8; v9; v10; v11; v12; v13; v14; v15].
Lemma G1 : G V 0 4 8 12 x y = let '(a, b, c, d) := gs v0 v4 v8 v12 x y in
  [a; v1; v2; v3; b; v5; v6; v7; c; v9; v10; v11; d; v13; v14; v15].
Proof. reflexivity. Qed.
Lemma G2 : G V 1 5 9 13 x y = let '(a, b, c, d) := gs v1 v5 v9 v13 x y in
  [v0; a; v2; v3; v4; b; v6; v7; v8; c; v10; v11; v12; d; v14; v15].
Proof. reflexivity. Qed.
Lemma G3 : G V 2 6 10 14 x y = let '(a, b, c, d) := gs v2 v6 v10 v14 x y in
  [v0; v1; a; v3; v4; v5; b; v7; v8; v9; c; v11; v12; v13; d; v15].
Proof. reflexivity. Qed.
Lemma G4 : G V 3 7 11 15 x y = let '(a, b, c, d) := gs v3 v7 v11 v15 x y in
  [v0; v1; v2; a; v4; v5; v6; b; v8; v9; v10; c; v12; v13; v14; d].
Proof. reflexivity. Qed.
Lemma G5 : G V 0 5 10 15 x y = let '(a, b, c, d) := gs v0 v5 v10 v15 x y in
  [a; v1; v2; v3; v4; b; v6; v7; v8; v9; c; v11; v12; v13; v14; d].
Proof. reflexivity. Qed.
Lemma G6 : G V 1 6 11 12 x y = let '(a, b, c, d) := gs v1 v6 v11 v12 x y in
  [v0; a; v2; v3; v4; v5; b; v7; v8; v9; v10; c; d; v13; v14; v15].
Proof. reflexivity. Qed.
Lemma G7 : G V 2 7 8 13 x y = let '(a, b, c, d) := gs v2 v7 v8 v13 x y in
  [v0; v1; a; v3; v4; v5; v6; b; c; v9; v10; v11; v12; d; v14; v15].
Proof. reflexivity. Qed.
Lemma G8 : G V 3 4 9 14 x y = let '(a, b, c, d) := gs v3 v4 v9 v14 x y in
  [v0; v1; v2; a; b; v5; v6; v7; v8; c; v10; v11; v12; v13; d; v15].
Proof. reflexivity. Qed.
End GL.

Notation st16 := (block_ok 64 16).

Lemma list16 {A} (v : list A) : length v = 16%nat -> exists v0 v1 v2 v3 v4 v5 v6 v7 v8 v9 v10 v11 v12 v13 v14 v15,
  v = [v0; v1; v2; v3; v4; v5; v6; v7; v8; v9; v10; v11; v12; v13; v14; v15].
Proof.
  intros H. do 16 (destruct v as [|? v]; [discriminate|]). destruct v; [|discriminate].
  repeat eexists.
Qed.

Lemma round_same M v i : st16 v ->
  blake2b_round M v (nth (i mod 10)%nat SIGMA []) = mix_round M v i /\
  st16 (mix_round M v i).
Proof.
  intros [L HF].
  destruct (list16 v L) as (v0 & v1 & v2 & v3 & v4 & v5 & v6 & v7 & v8 & v9 & v10 & v11 & v12 & v13 & v14 & v15 & ->).
  repeat match goal with H : Forall _ (_ :: _) |- _ => inversion H; subst; clear H end.
  unfold mix_round, blake2b_round, get. generalize (nth (i mod 10)%nat SIGMA []). intros ix.
  cbv zeta.
  rewrite G1; case_g. rewrite G2; case_g. rewrite G3; case_g. rewrite G4; case_g.
  rewrite G5; case_g. rewrite G6; case_g. rewrite G7; case_g. rewrite G8; case_g.
  split; [reflexivity|]. split; [reflexivity|].
  repeat (constructor; [assumption|]). constructor.
Qed.

Lemma rounds_eq : blake2b_rounds = map (fun i => nth (i mod 10)%nat SIGMA []) (seq 0 12).
Proof. reflexivity. Qed.

Lemma fold_map_same {A B S} (r1 : S -> B -> S) (r2 : S -> A -> S) (f : A -> B) (P : S -> Prop)
  (H : forall v i, P v -> r1 v (f i) = r2 v i /\ P (r2 v i)) l : forall v, P v ->
  fold_left r1 (map f l) v = fold_left r2 l v /\ P (fold_left r2 l v).
Proof.
  induction l as [|i l IH]; intros v Hv; cbn [map fold_left]; [auto|].
  destruct (H v i Hv) as [E K]. rewrite E. apply IH. exact K.
Qed.

Lemma mix_same M v : st16 v ->
  blake2b_mix M v = fold_left (mix_round M) (seq 0 12) v /\ st16 (fold_left (mix_round M) (seq 0 12) v).
Proof.
  intros Hv. unfold blake2b_mix. rewrite rounds_eq.
  exact (fold_map_same (blake2b_round M) (mix_round M) _ st16 (round_same M) _ v Hv).
Qed.

Notation st8 := (block_ok 64 8).

Lemma IV_ok : st8 IV.
Proof. split; [reflexivity|]. repeat constructor. Qed.

Lemma list8 {A} (v : list A) : length v = 8%nat -> exists v0 v1 v2 v3 v4 v5 v6 v7,
  v = [v0; v1; v2; v3; v4; v5; v6; v7].
Proof.
  intros H. do 8 (destruct v as [|? v]; [discriminate|]). destruct v; [|discriminate].
  repeat eexists.
Qed.

(** The sixteen working words at the start of the compression. *)
Definition start (h : list N) (t f : N) : list N :=
  h ++ [0x6A09E667F3BCC908; 0xBB67AE8584CAA73B; 0x3C6EF372FE94F82B; 0xA54FF53A5F1D36F1;
        N.lxor 0x510E527FADE682D1 t; 0x9B05688C2B3E6C1F; N.lxor 0x1F83D9ABFB41BD6B f; 0x5BE0CD19137E2179].

Lemma start_ok h t f : st8 h -> ok64 t -> ok64 f -> st16 (start h t f).
Proof.
  intros [L HF] Ht Hf. unfold start. split.
  - rewrite app_length, L. reflexivity.
  - apply Forall_app. split; [auto|].
    repeat (apply Forall_cons; [try (apply lxor_ok; [reflexivity|assumption]); reflexivity|]). constructor.
Qed.

Definition flag (f : bool) : N := if f then 0xFFFFFFFFFFFFFFFF else 0.

Lemma F_start h m t f : st8 h -> t < 2 ^ 64 ->
  F h m t f = let v := fold_left (mix_round m) (seq 0 12) (start h t (flag f)) in
    map (fun i => N.lxor (N.lxor (get h i) (get v i)) (get v (i + 8))) (seq 0 8).
Proof.
  intros [L _] Ht. unfold F. rewrite (N.mod_small t) by auto.
  assert (E : N.shiftr t 64 = 0) by (rewrite N.shiftr_div_pow2; now apply N.div_small).
  rewrite E. 
  destruct (list8 h L) as (v0 & v1 & v2 & v3 & v4 & v5 & v6 & v7 & ->).
  assert (Es : (let v := [v0; v1; v2; v3; v4; v5; v6; v7] ++ IV in
      let v := set v 12 (N.lxor (get v 12) t) in
      let v := set v 13 (N.lxor (get v 13) 0) in
      if f then set v 14 (N.lxor (get v 14) (2 ^ 64 - 1)) else v) =
      start [v0; v1; v2; v3; v4; v5; v6; v7] t (flag f)).
  { destruct f; reflexivity. }
  cbv zeta in Es |- *. rewrite Es. reflexivity.
Qed.

Lemma model_start h m seen f : st8 h ->
  blake2b_process_block h m seen f =
  let v := blake2b_mix m (start h (seen / 8 + (if seen mod 8 =? 0 then 0 else 1)) f) in
    map (fun i => N.lxor (nth i h 0) (N.lxor (nth i v 0) (nth (i + 8) v 0))) (seq 0 8).
Proof.
  intros [L _]. unfold blake2b_process_block.
  generalize (seen / 8 + (if seen mod 8 =? 0 then 0 else 1)). intros t.
  destruct (list8 h L) as (v0 & v1 & v2 & v3 & v4 & v5 & v6 & v7 & ->).
  cbv zeta. unfold start. generalize (blake2b_mix m). intros mix.
  cbn [app firstn skipn nth blake2b_iv]. rewrite !N.lxor_0_r. reflexivity.
Qed.

Lemma nth_ok (v : list N) i : Forall ok64 v -> ok64 (nth i v 0).
Proof.
  intros H. revert i; induction H; intros [|i]; cbn; auto; reflexivity.
Qed.

(** The model's compression function is F. *)
Lemma process_block_bits h m n f : st8 h -> n < 2 ^ 64 ->
  blake2b_process_block h m n (flag f) = F h m ((n + 7) / 8) f /\ st8 (F h m ((n + 7) / 8) f).
Proof.
  intros Hh Hn.
  assert (Ht : (n + 7) / 8 < 2 ^ 64).
  { apply N.div_lt_upper_bound; [discriminate|]. change (2 ^ 64) with 18446744073709551616 in *. lia. }
  rewrite F_start, model_start by auto.
  assert (E : n / 8 + (if n mod 8 =? 0 then 0 else 1) = (n + 7) / 8).
  { clear. pose proof (N.div_mod n 8 ltac:(discriminate)) as D. pose proof (N.mod_lt n 8 ltac:(discriminate)) as L.
    destruct (n mod 8 =? 0) eqn:Z; lia. }
  rewrite E.
  assert (Hs : st16 (start h ((n + 7) / 8) (flag f))) by (apply start_ok; auto; destruct f; reflexivity).
  destruct (mix_same m _ Hs) as [E2 Hv]. rewrite E2. cbv zeta.
  generalize dependent (fold_left (mix_round m) (seq 0 12) (start h ((n + 7) / 8) (flag f))).
  intros v _ [_ Hv]. destruct Hh as [_ Hh]. split.
  - apply map_ext. intros i. unfold get. now rewrite N.lxor_assoc.
  - split; [reflexivity|]. apply Forall_map. apply Forall_forall. intros i _. unfold get.
    apply lxor_ok; [apply lxor_ok|]; now apply nth_ok.
Qed.

Lemma process_block_F h m n f : st8 h -> N.of_nat n < 2 ^ 61 ->
  blake2b_process_block h m (N.of_nat (8 * n)) (flag f) = F h m (N.of_nat n) f /\ st8 (F h m (N.of_nat n) f).
Proof.
  intros Hh Hn.
  assert (Hs : N.of_nat (8 * n) < 2 ^ 64) by (change (2 ^ 64) with (8 * 2 ^ 61); lia).
  destruct (process_block_bits h m (N.of_nat (8 * n)) f Hh Hs) as [E K].
  assert (Ed : (N.of_nat (8 * n) + 7) / 8 = N.of_nat n) by (symmetry; apply (N.div_unique _ 8 _ 7); lia).
  rewrite Ed in E, K. split; assumption.
Qed.

Local Close Scope N_scope.

Section Digest.
Context (inj : injector) (db : nat) (Hdb : 0 < db <= 512) (H8 : db mod 8 = 0)
        (HI : injector_contract LOBB 64 16 inj).
Notation C := (blake2b inj db).
Notation h0 := (set IV 0 (N.lxor (get IV 0) (N.lxor 0x01010000 (N.of_nat (db / 8))))).

Lemma h0_eq : haifa_reset db blake2b_iv = h0.
Proof. reflexivity. Qed.
Lemma h0_ok : st8 h0.
Proof.
  split; [reflexivity|]. unfold set. cbn [firstn skipn app IV].
  apply Forall_cons; [|repeat constructor]. apply lxor_ok; [reflexivity|]. apply lxor_ok; [reflexivity|].
  unfold fits. assert (db / 8 <= 64) by lia. lia.
Qed.

Lemma blake2b_wf : wf_construction C.
Proof. constructor; cbn; auto; lia. Qed.

Lemma absorb_non_final bs : forall h i,
  st8 h -> (N.of_nat ((i + length bs) * 128) < 2 ^ 61)%N ->
  Forall (fun b => length b = 128 /\ Forall (fits 8) b) bs ->
  absorb C h (N.of_nat (8 * (i * 128))) (map octets_bits bs) = non_final h i (map (le_words 8) bs) /\
  st8 (non_final h i (map (le_words 8) bs)).
Proof.
  induction bs as [|b bs IH]; intros h i Hh Hs HF; cbn [map absorb non_final]; [auto|].
  inversion HF as [|? ? [Lb Fb] HF']; subst. cbn [length] in Hs.
  change (block_bits C) with 1024.
  replace (N.of_nat (8 * (i * 128)) + N.of_nat 1024)%N with (N.of_nat (8 * ((i + 1) * 128))) by lia.
  rewrite wrap64_small by (change (2 ^ 64)%N with (8 * 2 ^ 61)%N; change (2 ^ 61)%N with 2305843009213693952%N in *; lia).
  change (c_proc C) with (fun s b seen => blake2b_process_block s b seen 0%N).
  change (c_endian C) with LOBB. change (c_word C) with 64. cbv beta.
  rewrite (le_words_stream 8) by (auto; lia).
  destruct (process_block_F h (le_words 8 b) ((i + 1) * 128) false) as [E K]; auto.
  { eapply N.le_lt_trans; [|exact Hs]. lia. }
  change (flag false) with 0%N in E. rewrite E.
  apply IH; auto. eapply N.le_lt_trans; [|exact Hs]. lia.
Qed.

Lemma absorbed_non_final os : Forall (fits 8) os -> (N.of_nat (8 * length os) < 2 ^ 64)%N ->
  absorbed C (octets_bits os) = non_final h0 0 (map (le_words 8) (chunks 128 os)) /\
  st8 (non_final h0 0 (map (le_words 8) (chunks 128 os))).
Proof.
  intros HF Hs. unfold absorbed. change (block_bits C) with (8 * 128). rewrite chunks_octets by lia.
  change (c_init C) with h0. apply (absorb_non_final (chunks 128 os) h0 0).
  - exact h0_ok.
  - rewrite chunks_length. assert (128 * (length os / 128) <= length os) by (apply Nat.mul_div_le; lia).
    change (2 ^ 64)%N with (8 * 2 ^ 61)%N in Hs. lia.
  - apply Forall_forall. intros b Hb. split.
    + pose proof (chunks_Forall 128 os ltac:(lia)) as K. rewrite Forall_forall in K. now apply K.
    + pose proof (chunk_fits 128 (length os / 128) os HF) as K. rewrite Forall_forall in K. now apply K.
Qed.

Lemma process_snoc d : forall h i ll m,
  process h i ll (d ++ [m]) = F (non_final h i d) m (N.of_nat ll) true.
Proof.
  induction d as [|b d IH]; intros h i ll m; [reflexivity|].
  cbn [app non_final]. rewrite <- IH. cbn [process]. destruct (d ++ [m]) eqn:E; [destruct d; discriminate|].
  reflexivity.
Qed.

(** Messages that do not fill their last block, to the bit. *)
Lemma open_out A T Tb k : Forall (fits 8) A -> Forall (fits 8) T ->
  length A mod 128 = 0 -> length Tb < 1024 -> (Tb = [] -> A = []) ->
  octets_bits T = Tb ++ repeat false k -> k < 8 ->
  (N.of_nat (length (octets_bits A ++ Tb)) < 2 ^ 64)%N ->
  haifa_out LOBB 64 16 (db / 8) (haifa_reset db blake2b_iv) blake2b_process_block 0xFFFFFFFFFFFFFFFF inj
    (octets_bits A ++ Tb) = BLAKE2b (db / 8) (A ++ T).
Proof.
  intros FA FT LA LT Hnil ET Hk Hs.
  assert (LM : length (octets_bits A ++ Tb) = 8 * length A + length Tb) by now rewrite app_length, octets_bits_length.
  assert (L8 : 8 * length T = length Tb + k) by (rewrite <- octets_bits_length, ET, app_length, repeat_length; lia).
  assert (LA8 : (8 * length A) mod 1024 = 0) by lia.
  assert (Er : (8 * length A + length Tb) mod 1024 = length Tb) by lia.
  unfold haifa_out. cbv zeta. change (64 * 16) with 1024. rewrite LM, Er.
  assert (EB : (length Tb =? 0) && negb (8 * length A + length Tb =? 0) = false).
  { destruct Tb as [|t Tb]; [|reflexivity]. rewrite Hnil by auto. reflexivity. }
  rewrite EB.
  change (haifa_construction LOBB 64 16 (db / 8) (haifa_reset db blake2b_iv) blake2b_process_block
            (blake2b_padding inj 64 16) 0xFFFFFFFFFFFFFFFF) with C.
  assert (Ea : absorbed C (octets_bits A ++ Tb) = absorbed C (octets_bits A)).
  { unfold absorbed. change (block_bits C) with 1024.
    rewrite chunks_app by (rewrite ?octets_bits_length; lia). rewrite (chunks_lt 1024 Tb) by auto. now rewrite app_nil_r. }
  destruct (absorbed_non_final A FA) as [EA KA]; [lia|].
  rewrite Ea, EA. clear Ea EA.
  replace (8 * length A + length Tb - length Tb) with (length (octets_bits A)) by (rewrite octets_bits_length; lia).
  rewrite skipn_app, skipn_all, Nat.sub_diag. cbn [app skipn].
  assert (ES : Tb ++ repeat false (1024 - length Tb) = octets_bits (T ++ repeat 0%N (128 - length T))).
  { rewrite octets_bits_app, ET, <- app_assoc. f_equal. unfold octets_bits. rewrite stream_zeros, <- repeat_app.
    f_equal. lia. }
  assert (FZ : Forall (fits 8) (T ++ repeat 0%N (128 - length T))).
  { apply Forall_app. split; [auto|]. apply (block_ok_zeros 8 (128 - length T)). }
  rewrite ES, (le_words_stream 8) by (auto; lia).
  destruct (process_block_bits (non_final h0 0 (map (le_words 8) (chunks 128 A)))
     (le_words 8 (T ++ repeat 0%N (128 - length T))) (blen (octets_bits A ++ Tb)) true KA Hs) as [EF _].
  change 0xFFFFFFFFFFFFFFFF%N with (flag true). rewrite EF, (pack_le 8) by lia.
  assert (En : ((blen (octets_bits A ++ Tb) + 7) / 8 = N.of_nat (length (A ++ T)))%N).
  { unfold blen. rewrite LM, app_length. symmetry.
    apply (N.div_unique _ 8 _ (N.of_nat (7 - k))); lia. }
  rewrite En. unfold BLAKE2b.
  assert (ED : data_blocks (A ++ T) = map (le_words 8) (chunks 128 A) ++ [le_words 8 (T ++ repeat 0%N (128 - length T))]).
  { unfold data_blocks, data_octets.
    replace (if length (A ++ T) =? 0 then 128 else (128 - length (A ++ T) mod 128) mod 128) with (128 - length T).
    - rewrite <- app_assoc, chunks_snoc, map_app; [reflexivity|lia|lia|].
      rewrite app_length, repeat_length. lia.
    - rewrite app_length. destruct (length A + length T =? 0) eqn:Z; [lia|].
      assert (length T <> 0). { intros Q. assert (length Tb = 0) by lia. destruct Tb; [|discriminate].
        rewrite Hnil in Z by auto. cbn [length] in Z. lia. }
      lia. }
  rewrite ED, process_snoc. reflexivity.
Qed.

Lemma blake2b_out os : Forall (fits 8) os -> (N.of_nat (8 * length os) < 2 ^ 64)%N ->
  haifa_out LOBB 64 16 (db / 8) (haifa_reset db blake2b_iv) blake2b_process_block 0xFFFFFFFFFFFFFFFF inj
    (octets_bits os) = BLAKE2b_observed (db / 8) os.
Proof.
  intros HF Hs. unfold haifa_out, BLAKE2b_observed. cbv zeta.
  change (haifa_construction LOBB 64 16 (db / 8) (haifa_reset db blake2b_iv) blake2b_process_block
            (blake2b_padding inj 64 16) 0xFFFFFFFFFFFFFFFF) with C.
  destruct (absorbed_non_final os HF Hs) as [EA KA]. rewrite EA. clear EA.
  unfold blen. rewrite octets_bits_length.
  assert (Hn : (N.of_nat (length os) < 2 ^ 61)%N) by (change (2 ^ 64)%N with (8 * 2 ^ 61)%N in Hs; lia).
  change (64 * 16) with 1024.
  replace ((8 * length os) mod 1024) with (8 * (length os mod 128)) by lia.
  replace (8 * (length os mod 128) =? 0) with (length os mod 128 =? 0) by lia.
  replace (8 * length os =? 0) with (length os =? 0) by lia.
  assert (EP : forall m, blake2b_process_block (non_final h0 0 (map (le_words 8) (chunks 128 os))) m
      (N.of_nat (8 * length os)) 18446744073709551615 =
      F (non_final h0 0 (map (le_words 8) (chunks 128 os))) m (N.of_nat (length os)) true).
  { intros m. apply (process_block_F _ m (length os) true); auto. }
  change (0xFFFFFFFFFFFFFFFF)%N with 18446744073709551615%N.
  rewrite EP, (pack_le 8) by lia.
  destruct ((length os mod 128 =? 0) && negb (length os =? 0)) eqn:B.
  - replace (8 * length os - 1024) with (8 * (length os - 128)) by lia.
    change (skipn (8 * (length os - 128)) (octets_bits os)) with
      (skipn (8 * (length os - 128)) (stream BOBB 8 os)).
    rewrite stream_skipn. change (stream BOBB 8 (skipn (length os - 128) os)) with (octets_bits (skipn (length os - 128) os)).
    rewrite (le_words_stream 8) by (try lia; rewrite <- (firstn_skipn (length os - 128) os) in HF; apply Forall_app in HF; apply HF).
    unfold data_blocks, data_octets.
    destruct (length os =? 0) eqn:Z; [rewrite andb_false_r in B; discriminate|].
    replace ((128 - length os mod 128) mod 128) with 0 by lia. cbn [repeat]. now rewrite app_nil_r.
  - assert (Hr : length os mod 128 < 128) by (apply Nat.mod_upper_bound; lia).
    set (A := firstn (length os - length os mod 128) os). set (T := skipn (length os - length os mod 128) os).
    assert (EAT : os = A ++ T) by (symmetry; apply firstn_skipn).
    assert (LT : length T = length os mod 128) by (unfold T; rewrite skipn_length; lia).
    assert (LA : length A = length os - length os mod 128) by (unfold A; rewrite firstn_length; lia).
    pose proof (open_out A T (octets_bits T) 0) as K.
    rewrite <- EAT in K. rewrite <- K; auto.
    + rewrite <- octets_bits_app, <- EAT. unfold haifa_out. cbv zeta. rewrite octets_bits_length.
      change (64 * 16) with 1024.
      replace ((8 * length os) mod 1024) with (8 * (length os mod 128)) by lia.
      replace (8 * (length os mod 128) =? 0) with (length os mod 128 =? 0) by lia.
      replace (8 * length os =? 0) with (length os =? 0) by lia. rewrite B.
      change (haifa_construction LOBB 64 16 (db / 8) (haifa_reset db blake2b_iv) blake2b_process_block
            (blake2b_padding inj 64 16) 0xFFFFFFFFFFFFFFFF) with C.
      destruct (absorbed_non_final os HF Hs) as [EA _]. rewrite EA. unfold blen. rewrite octets_bits_length, EP.
      rewrite (pack_le 8) by lia. reflexivity.
    + rewrite EAT in HF. apply Forall_app in HF. apply HF.
    + rewrite EAT in HF. apply Forall_app in HF. apply HF.
    + lia.
    + rewrite octets_bits_length, LT. lia.
    + intros ET. assert (length (octets_bits T) = 0) by now rewrite ET.
      rewrite (octets_bits_length T) in H. destruct A; [reflexivity|]. exfalso.
      cbn [length] in LA. rewrite LT in H. assert (H' : length os mod 128 = 0) by lia. rewrite H' in B.
      change (0 =? 0) with true in B. cbn [andb] in B.
      assert (length os =? 0 = true) by (destruct (length os =? 0); auto; discriminate). lia.
    + cbn [repeat]. now rewrite app_nil_r.
    + lia.
    + rewrite app_length, !octets_bits_length, <- Nat.mul_add_distr_l, <- app_length, <- EAT. exact Hs.
Qed.

Lemma blake2b_out_bits M : (N.of_nat (length M) < 2 ^ 64)%N ->
  haifa_out LOBB 64 16 (db / 8) (haifa_reset db blake2b_iv) blake2b_process_block 0xFFFFFFFFFFFFFFFF inj
    M = BLAKE2b_bits_observed (db / 8) M.
Proof.
  intros Hs. unfold BLAKE2b_bits_observed. destruct (length M mod 8 =? 0) eqn:B.
  - rewrite <- (octets_bits_octets M) at 1 by lia. apply blake2b_out; [apply words_of_stream_fits|].
    rewrite <- octets_bits_length, octets_bits_octets by lia. exact Hs.
  - set (r := length M mod 1024).
    assert (Hr : r < 1024) by (apply Nat.mod_upper_bound; lia).
    set (k := 8 - length M mod 8).
    assert (L1 : length (skipn (length M - r) M) = r) by (rewrite skipn_length; lia).
    assert (L0 : length (firstn (length M - r) M) = length M - r) by (rewrite firstn_length; lia).
    pose proof (open_out (bits_octets (firstn (length M - r) M)) (bits_octets (skipn (length M - r) M ++ repeat false k))
                  (skipn (length M - r) M) k) as K.
    rewrite (octets_bits_octets (firstn (length M - r) M)) in K by (rewrite L0; lia). rewrite firstn_skipn in K.
    rewrite K; clear K.
    + f_equal. unfold bits_octets. rewrite <- words_of_stream_app by (try lia; rewrite L0; lia).
      now rewrite app_assoc, firstn_skipn.
    + apply words_of_stream_fits.
    + apply words_of_stream_fits.
    + unfold bits_octets. rewrite words_of_stream_length, L0. lia.
    + lia.
    + intros E. assert (R0 : r = 0) by (rewrite <- L1, E; reflexivity). unfold r in R0. lia.
    + rewrite octets_bits_octets; [reflexivity|]. rewrite app_length, repeat_length, L1. unfold k. lia.
    + unfold k. lia.
    + exact Hs.
Qed.

Lemma blake2b_correct :
  digest_correct C (fun _ => True)
    (haifa_out LOBB 64 16 (db / 8) (haifa_reset db blake2b_iv) blake2b_process_block 0xFFFFFFFFFFFFFFFF inj).
Proof. apply haifa_digest_correct; auto; lia. Qed.
End Digest.
