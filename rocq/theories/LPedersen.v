(** Pedersen hash: proofs. *)
From Coq Require Import NArith ZArith Arith List Bool Lia ZifyBool ZifyNat ZifyN.
From Verif Require Import SpecStream LStream MAcc SpecPedersen MPedersen.
Import ListNotations.
Ltac Zify.zify_post_hook ::= Z.div_mod_to_equations.

Lemma groups_nil {A} n : @groups A n [] = [].
Proof. unfold groups. rewrite chunks_nil. cbn [length]. destruct n; [reflexivity|]. rewrite Nat.mod_0_l by lia. reflexivity. Qed.
Lemma groups_cons {A} n (a b : list A) : 0 < n -> length a = n -> groups n (a ++ b) = a :: groups n b.
Proof.
  intros Hn Ha. unfold groups. rewrite chunks_cons by auto. cbn [app]. f_equal. f_equal.
  rewrite app_length, Ha. replace ((n + length b) mod n) with (length b mod n).
  2:{ replace (n + length b) with (length b + 1 * n) by lia. now rewrite Nat.mod_add by lia. }
  destruct (length b mod n =? 0); [reflexivity|]. f_equal.
  replace (n + length b) with (length b + 1 * n) by lia. rewrite Nat.div_add by lia.
  generalize (length b / n). intros q. rewrite Nat.mul_add_distr_r, Nat.mul_1_l.
  rewrite skipn_app. rewrite skipn_all2 by lia. cbn [app]. f_equal. lia.
Qed.
Lemma groups_last {A} n (a : list A) : 0 < length a <= n -> groups n a = [a].
Proof.
  intros Ha. destruct (Nat.eq_dec (length a) n) as [E|E].
  - rewrite <- (app_nil_r a) at 1. rewrite groups_cons, groups_nil by lia. reflexivity.
  - unfold groups. rewrite chunks_lt by lia. rewrite Nat.mod_small, Nat.div_small by lia.
    destruct (Nat.eqb_spec (length a) 0); [lia|]. reflexivity.
Qed.
Lemma groups_concat {A} n (ls : list (list A)) rest : 0 < n -> Forall (fun l => length l = n) ls ->
  groups n (concat ls ++ rest) = ls ++ groups n rest.
Proof.
  intros Hn HF. induction HF as [|l ls Hl HF IH]; [reflexivity|]. cbn [concat app].
  rewrite <- app_assoc, groups_cons by auto. now rewrite IH.
Qed.
Lemma concat_length {A} n (ls : list (list A)) : Forall (fun l => length l = n) ls -> length (concat ls) = n * length ls.
Proof. induction 1 as [|l ls Hl HF IH]; cbn [concat length]; [lia|]. rewrite app_length, IH. lia. Qed.

Lemma encode_snoc cs m : encode_segment (cs ++ [m]) = (encode_segment cs + enc m * 16 ^ Z.of_nat (length cs))%Z.
Proof.
  induction cs as [|x cs IH]; [cbn; lia|]. cbn [encode_segment app length]. rewrite IH.
  rewrite Nat2Z.inj_succ, Z.pow_succ_r by lia. ring.
Qed.

Definition need (M : list bool) : nat := match M with [] => 3 | _ => (3 - length M mod 3) mod 3 end.
Lemma need_le M : need M <= 3.
Proof. unfold need. destruct M; lia. Qed.

Lemma pad3_need M : pad3 M = M ++ repeat false (need M).
Proof. reflexivity. Qed.

Lemma pad3_ne M : pad3 M <> [].
Proof. unfold pad3. destruct M; [discriminate|]. cbn. discriminate. Qed.
Lemma pad3_idem M : pad3 (pad3 M) = pad3 M.
Proof.
  rewrite pad3_need. replace (need (pad3 M)) with 0; [apply app_nil_r|].
  unfold need. pose proof (pad3_ne M). destruct (pad3 M) eqn:E; [congruence|]. rewrite <- E. clear E H l b.
  rewrite pad3_need, app_length, repeat_length. unfold need. destruct M; [reflexivity|]. cbn [length]. lia.
Qed.

Section P.
Context {G : Type} (zero : G) (add : G -> G -> G) (mul : Z -> G -> G) (base : N -> G).
Context (p : Z) (width cn : nat).
Context (HG : group_laws zero add) (Hp : (0 < p)%Z).
Context (Hmul : forall i z, mul (z mod p)%Z (base i) = mul z (base i)).
Context (Hc : 2 <= cn) (HW : (16 ^ (Z.of_nat cn - 1) < 2 ^ Z.of_nat width)%Z).
Notation I := (fun i => base (N.of_nat i)).
Notation sums := (sum_segments zero add mul I).

Lemma sum_shift segs s : forall i, sums i (segs ++ [s]) = add (sums i segs) (mul (encode_segment s) (I (i + length segs))).
Proof.
  destruct HG as [GA GC GZ].
  induction segs as [|x segs IH]; intros i; cbn [app sum_segments length].
  - now rewrite GZ, GC, GZ, Nat.add_0_r.
  - rewrite IH, GA. do 4 f_equal. lia.
Qed.

Record Inv (a : @pacc G) (M : list bool) (extra : G) (full : list (list (list bool))) (cur : list (list bool)) : Prop := {
  i_M : M = concat (concat full ++ cur) ++ cached_bits a;
  i_full : Forall (fun s => length s = cn) full;
  i_chunk : Forall (fun m => length m = 3) (concat full ++ cur);
  i_cur : length cur <= cn;
  i_ne : full <> [] -> cur <> [];
  i_cached : length (cached_bits a) < 3;
  i_bits : bits_supplied a = N.of_nat (length M);
  i_pow : pow_two a = (16 ^ Z.of_nat (length cur) mod 2 ^ Z.of_nat width)%Z;
  i_enc : encoded_segment a = (encode_segment cur mod p)%Z;
  i_base : current_base_point a = I (length full);
  i_result : result a = add (sums 0 full) extra }.

Lemma inv_init : Inv (p_init zero base) [] zero [] [].
Proof.
  destruct HG as [GA GC GZ]. unfold p_init. constructor; cbn; auto; try lia.
  - rewrite Z.mod_1_l; [reflexivity|].
    assert (1 <= 16 ^ (Z.of_nat cn - 1))%Z by (apply (Z.pow_le_mono_r 16 0); lia). lia.
Qed.

Lemma enc_lookup m : lookup m = enc m.
Proof. reflexivity. Qed.

Lemma current_ok a M extra full cur :
  M = concat (concat full ++ cur) ++ cached_bits a -> Forall (fun s => length s = cn) full ->
  Forall (fun m => length m = 3) (concat full ++ cur) -> length cur < cn -> length (cached_bits a) = 3 ->
  bits_supplied a = N.of_nat (length M) -> pow_two a = (16 ^ Z.of_nat (length cur) mod 2 ^ Z.of_nat width)%Z ->
  encoded_segment a = (encode_segment cur mod p)%Z -> current_base_point a = I (length full) ->
  result a = add (sums 0 full) extra ->
  exists a', update_current_segment p width a = Some a' /\ Inv a' M extra full (cur ++ [cached_bits a]).
Proof.
  intros EM HF HC Hl HL EB EP EE ECB ER. unfold update_current_segment. rewrite HL. cbn [Nat.eqb negb].
  eexists. split; [reflexivity|]. constructor; cbn [cached_bits bits_supplied pow_two encoded_segment current_base_point result]; auto.
  - rewrite EM, app_nil_r. rewrite !concat_app. cbn [concat]. now rewrite app_nil_r, <- !app_assoc.
  - rewrite app_assoc. apply Forall_app. split; [auto|]. constructor; auto.
  - rewrite app_length. cbn [length]. lia.
  - intros _. destruct cur; discriminate.
  - rewrite EP. rewrite Z.mul_mod_idemp_l by (apply Z.pow_nonzero; lia). f_equal.
    rewrite app_length. cbn [length]. replace (length cur + 1) with (S (length cur)) by lia.
    rewrite Nat2Z.inj_succ, Z.pow_succ_r by lia. change (2 ^ 4)%Z with 16%Z. ring.
  - rewrite EP, EE, encode_snoc, enc_lookup. rewrite (Z.mod_small (16 ^ _)).
    2:{ split; [apply Z.pow_nonneg; lia|]. eapply Z.le_lt_trans; [|exact HW]. apply Z.pow_le_mono_r; lia. }
    now rewrite <- Z.add_mod by lia.
Qed.

(** At most 2^32 segments, or base points that repeat after 2^32. *)
Definition fine (n : nat) : Prop :=
  (N.of_nat n < 2 ^ 64 /\ (N.of_nat n <= N.of_nat (3 * cn) * 2 ^ 32 \/ forall i, base (i mod 2 ^ 32) = base i))%N.

Lemma update_bit_ok a M extra full cur b : Inv a M extra full cur ->
  fine (length M + 1) ->
  exists a' full' cur', update_bit add mul base p width (N.of_nat cn) a b = Some a' /\ Inv a' (M ++ [b]) extra full' cur'.
Proof.
  intros [EM HF HC Hl Hne Hcache EB EP EE ECB ER] [HS H32]. unfold update_bit.
  cbn [cached_bits bits_supplied].
  assert (EB' : wrap64 (bits_supplied a + 1) = N.of_nat (length (M ++ [b]))).
  { unfold wrap64. rewrite app_length, EB. cbn [length]. rewrite N.mod_small by lia. lia. }
  rewrite EB'. rewrite app_length. cbn [length].
  destruct (Nat.eqb_spec (length (cached_bits a) + 1) 3) as [E3|E3].
  2:{ eexists _, full, cur. split; [reflexivity|]. 
      constructor; cbn [cached_bits bits_supplied pow_two encoded_segment current_base_point result]; auto.
      - rewrite EM at 1. now rewrite <- app_assoc.
      - rewrite app_length. cbn [length]. lia. }
  set (a1 := Mk_pacc _ _ _ _ _ _).
  assert (ELm : length M = 3 * (cn * length full + length cur) + length (cached_bits a)).
  { rewrite EM at 1. rewrite app_length, (concat_length 3) by auto. rewrite app_length, (concat_length cn) by auto. reflexivity. }
  assert (ESC : supplied_chunks a1 = Some (N.of_nat (cn * length full + length cur + 1))).
  { unfold supplied_chunks, a1. cbn [bits_supplied]. rewrite app_length. cbn [length].
    replace (N.of_nat (length M + 1)) with (N.of_nat (cn * length full + length cur + 1) * 3)%N by lia.
    rewrite N.mod_mul by lia. cbn [N.eqb]. now rewrite N.div_mul by lia. }
  assert (EIT : is_time (N.of_nat cn) a1 = Some (length cur =? cn)).
  { unfold is_time. rewrite ESC. f_equal.
    rewrite <- Nat2N.inj_mod. replace (cn * length full + length cur + 1) with (length cur + 1 + length full * cn) by lia.
    rewrite Nat.mod_add by lia.
    destruct (Nat.eqb_spec (length cur) cn) as [E|E].
    - rewrite E. replace (cn + 1) with (1 + 1 * cn) by lia. rewrite Nat.mod_add, Nat.mod_small by lia. lia.
    - destruct cur as [|m cur'].
      + destruct full; [cbn [length]; lia|]. exfalso. apply Hne; [discriminate|reflexivity].
      + cbn [length] in *. destruct (Nat.eq_dec (S (length cur') + 1) cn) as [E'|E'].
        * rewrite E', Nat.mod_same by lia. lia.
        * rewrite Nat.mod_small by lia. lia. }
  rewrite EIT. destruct (Nat.eqb_spec (length cur) cn) as [E|E].
  - unfold update_new_segment. cbn [update_result bits_supplied].
    assert (E1 : is_time (N.of_nat cn) (update_result add mul a1) = Some true) by exact EIT.
    assert (E2 : supplied_chunks (update_result add mul a1) = supplied_chunks a1) by reflexivity.
    rewrite E1, E2, ESC.
    destruct (N.eqb_spec (bits_supplied a1) 0) as [Z|_].
    { exfalso. unfold a1 in Z. cbn [bits_supplied] in Z. rewrite app_length in Z. cbn [length] in Z. lia. }
    rewrite <- Nat2N.inj_div. replace ((cn * length full + length cur + 1) / cn) with (length full + 1).
    2:{ apply Nat.div_unique with (r := 1); lia. }
    assert (EBM : base (N.of_nat (length full + 1) mod 2 ^ 32) = base (N.of_nat (length full + 1))).
    { destruct H32 as [H32|H32]; [|apply H32]. rewrite N.mod_small; [reflexivity|].
      rewrite ELm in H32. clear - H32 E3 E Hc. rewrite E in H32. change (2 ^ 32)%N with 4294967296%N in *. nia. }
    rewrite EBM.
    edestruct (current_ok (Mk_pacc (bits_supplied a1) (cached_bits a1) 1 0 (base (N.of_nat (length full + 1)))
        (result (update_result add mul a1))) (M ++ [b]) extra (full ++ [cur]) []) as (a' & E' & I').
    + cbn [cached_bits]. unfold a1. cbn [cached_bits]. rewrite (concat_app full [cur]). cbn [concat]. rewrite !app_nil_r.
      rewrite EM at 1. now rewrite <- app_assoc.
    + apply Forall_app. split; [auto|]. constructor; auto.
    + rewrite (concat_app full [cur]). cbn [concat]. now rewrite !app_nil_r.
    + cbn [length]. lia.
    + unfold a1. cbn [cached_bits]. rewrite app_length. cbn [length]. lia.
    + reflexivity.
    + cbn [pow_two length]. rewrite Z.pow_0_r, Z.mod_1_l; [reflexivity|].
      assert (1 <= 16 ^ (Z.of_nat cn - 1))%Z by (apply (Z.pow_le_mono_r 16 0); lia). lia.
    + cbn [encoded_segment encode_segment]. now rewrite Z.mod_0_l by lia.
    + cbn [current_base_point]. now rewrite app_length.
    + cbn [result]. unfold a1. cbn [update_result result encoded_segment current_base_point].
      rewrite ER, EE, ECB, Hmul. rewrite sum_shift. cbn [plus].
      destruct HG as [GA GC GZ]. rewrite <- GA, (GC extra), GA. reflexivity.
    + cbn [update_result cached_bits]. cbn [bits_supplied] in E'. eexists a', (full ++ [cur]), _.
      split; [exact E'|]. exact I'.
  - edestruct (current_ok a1 (M ++ [b]) extra full cur) as (a' & E' & I'); auto.
    + unfold a1. cbn [cached_bits]. rewrite EM at 1. now rewrite <- app_assoc.
    + lia.
    + unfold a1. cbn [cached_bits]. rewrite app_length. cbn [length]. lia.
    + eexists a', full, _. split; [exact E'|]. exact I'.
Qed.

Notation upd := (update_bit add mul base p width (N.of_nat cn)).
Notation upds := (update_bits add mul base p width (N.of_nat cn)).
Lemma fine_le n m : n <= m -> fine m -> fine n.
Proof. unfold fine. intros L [H1 H2]. split; [lia|]. destruct H2; [left; lia|now right]. Qed.

Lemma update_bits_ok bs : forall a M extra full cur, Inv a M extra full cur -> fine (length (M ++ bs)) ->
  exists a' full' cur', upds a bs = Some a' /\ Inv a' (M ++ bs) extra full' cur'.
Proof.
  induction bs as [|b bs IH]; intros a M extra full cur HI HB.
  - eexists a, full, cur. split; [reflexivity|]. now rewrite app_nil_r.
  - cbn [update_bits]. destruct (update_bit_ok a M extra full cur b HI) as (a1 & f1 & c1 & E1 & I1).
    { eapply fine_le; [|exact HB]. rewrite app_length. cbn [length]. lia. }
    rewrite E1. destruct (IH a1 _ extra f1 c1 I1) as (a2 & f2 & c2 & E2 & I2).
    { now rewrite <- app_assoc. }
    eexists a2, f2, c2. split; [exact E2|]. now rewrite <- app_assoc in I2.
Qed.

Lemma cached_mod a M extra full cur : Inv a M extra full cur -> length (cached_bits a) = length M mod 3.
Proof.
  intros [EM HF HC Hl Hne Hcache EB EP EE ECB ER].
  assert (ELm : length M = 3 * length (concat full ++ cur) + length (cached_bits a)).
  { rewrite EM at 1. rewrite app_length, (concat_length 3) by auto. reflexivity. }
  lia.
Qed.

Lemma pad_ok f : forall a M extra full cur, Inv a M extra full cur -> need M < f -> fine (length M + need M) ->
  exists a' full' cur', pad_loop add mul base p width (N.of_nat cn) f a = Some a' /\
    Inv a' (M ++ repeat false (need M)) extra full' cur' /\ cached_bits a' = [].
Proof.
  induction f as [|f IH]; intros a M extra full cur HI Hf HB; [lia|]. cbn [pad_loop].
  pose proof (cached_mod _ _ _ _ _ HI) as CM. pose proof (i_bits _ _ _ _ _ HI) as EB.
  destruct (Nat.eq_dec (need M) 0) as [Z|NZ].
  - rewrite Z. cbn [repeat]. rewrite app_nil_r.
    assert (length M mod 3 = 0 /\ M <> []) as [Z1 Z2].
    { unfold need in Z. destruct M; [discriminate|]. split; [lia|discriminate]. }
    rewrite Z1 in CM. destruct (cached_bits a) eqn:EC; [|discriminate].
    assert (bits_supplied a <> 0%N) by (rewrite EB; destruct M; [congruence|cbn; lia]).
    destruct (N.eqb_spec (bits_supplied a) 0); [congruence|]. cbn [orb].
    eexists a, full, cur. split; [reflexivity|]. now split.
  - assert (EN : need M = S (need (M ++ [false]))).
    { unfold need in NZ |- *. destruct M as [|b M]; [reflexivity|]. cbn [app]. cbn [length] in *. rewrite app_length. cbn [length]. lia. }
    assert (K : (match cached_bits a with [] => false | _ => true end) || (bits_supplied a =? 0)%N = true).
    { rewrite EB. unfold need in NZ. destruct M as [|b M].
      - rewrite orb_true_r. reflexivity.
      - destruct (cached_bits a); [|reflexivity]. exfalso. cbn [length] in *. lia. }
    rewrite K. destruct (update_bit_ok a M extra full cur false HI) as (a1 & f1 & c1 & E1 & I1).
    { eapply fine_le; [|exact HB]. lia. }
    rewrite E1. destruct (IH a1 _ extra f1 c1 I1) as (a2 & f2 & c2 & E2 & I2 & C2).
    { lia. }
    { eapply fine_le; [|exact HB]. rewrite app_length. cbn [length]. lia. }
    eexists a2, f2, c2. split; [exact E2|]. split; [|exact C2].
    rewrite EN. cbn [repeat]. now rewrite <- app_assoc in I2.
Qed.

Lemma segments_ok a M extra full cur : Inv a M extra full cur -> cached_bits a = [] -> M <> [] ->
  segments cn M = full ++ [cur] /\ cur <> [].
Proof.
  intros [EM HF HC Hl Hne Hcache EB EP EE ECB ER] EC HM.
  assert (Hcur : cur <> []).
  { intros ->. destruct full as [|f full]; [|now apply Hne]. rewrite EC in EM. cbn in EM. congruence. }
  split; [|exact Hcur]. unfold segments. rewrite EM, EC.
  rewrite (groups_concat 3 _ [] ltac:(lia) HC), groups_nil, app_nil_r.
  rewrite (groups_concat cn full cur ltac:(lia) HF). f_equal. apply groups_last.
  destruct cur; [congruence|]. cbn [length] in *. lia.
Qed.

Lemma process_ok a M extra full cur : Inv a M extra full cur -> fine (length (pad3 M)) ->
  exists a' full' cur',
    p_process add mul base p width (N.of_nat cn) a = Some (add (pedersen_to_point zero add mul I cn M) extra, a') /\
    Inv a' (pad3 M) (add extra (last_term mul I cn M)) full' cur'.
Proof.
  intros HI HB. unfold p_process. rewrite pad3_need in HB |- *. rewrite app_length, repeat_length in HB.
  pose proof (need_le M).
  destruct (pad_ok 4 a M extra full cur HI ltac:(lia) HB) as (a1 & f1 & c1 & E1 & I1 & C1).
  rewrite E1. destruct (segments_ok a1 _ extra f1 c1 I1 C1) as [ES NE].
  { apply (pad3_ne M). }
  assert (R : result (update_result add mul a1) = add (pedersen_to_point zero add mul I cn M) extra).
  { cbn [update_result result]. rewrite (i_result _ _ _ _ _ I1), (i_enc _ _ _ _ _ I1), (i_base _ _ _ _ _ I1), Hmul.
    unfold pedersen_to_point. rewrite pad3_need, ES, sum_shift. cbn [plus].
    destruct HG as [GA GC GZ]. rewrite <- GA, (GC extra), GA. reflexivity. }
  eexists _, f1, c1. split; [rewrite R; reflexivity|].
  destruct I1 as [EM HF HC Hl Hne Hcache EB EP EE ECB ER].
  constructor; cbn [update_result cached_bits bits_supplied pow_two encoded_segment current_base_point result]; auto.
  rewrite ER, EE, ECB, Hmul. unfold last_term. rewrite pad3_need, ES. rewrite last_last, app_length. cbn [length].
  replace (length f1 + 1 - 1) with (length f1) by lia. destruct HG as [GA GC GZ]. now rewrite GA.
Qed.

Lemma final_length ops : forall M, length M <= length (final_message M ops).
Proof.
  induction ops as [|[bs|] ops IH]; intros M; cbn [final_message]; [lia| |].
  - specialize (IH (M ++ bs)). rewrite app_length in IH. lia.
  - specialize (IH (pad3 M)). rewrite pad3_need in IH at 1. rewrite app_length in IH. lia.
Qed.

Lemma run_ok ops : forall a M extra full cur, Inv a M extra full cur -> fine (length (final_message M ops)) ->
  p_run add mul base p width (N.of_nat cn) a ops = Some (pedersen_actual zero add mul I cn M extra ops).
Proof.
  induction ops as [|[bs|] ops IH]; intros a M extra full cur HI HB; [reflexivity| |]; cbn [p_run pedersen_actual final_message] in *.
  - destruct (update_bits_ok bs a M extra full cur HI) as (a1 & f1 & c1 & E1 & I1).
    { eapply fine_le; [apply final_length|exact HB]. }
    rewrite E1. now apply (IH a1 _ extra f1 c1).
  - destruct (process_ok a M extra full cur HI) as (a1 & f1 & c1 & E1 & I1).
    { eapply fine_le; [apply final_length|exact HB]. }
    rewrite E1. now rewrite (IH a1 (pad3 M) (add extra (last_term mul I cn M)) f1 c1 I1 HB).
Qed.
End P.

(** ** Segment encodings *)
Local Open Scope Z_scope.
Lemma enc_cases m : enc m <> 0 /\ -4 <= enc m <= 4.
Proof. unfold enc. destruct (nth 0 m false), (nth 1 m false), (nth 2 m false); cbn; lia. Qed.
Lemma enc_inj m m' : chunk_ok m -> chunk_ok m' -> enc m = enc m' -> m = m'.
Proof.
  unfold chunk_ok. intros L L'.
  destruct m as [|a [|b [|c [|]]]]; try discriminate. destruct m' as [|a' [|b' [|c' [|]]]]; try discriminate.
  destruct a, b, c, a', b', c'; cbn; intros E; try discriminate E; reflexivity.
Qed.
Lemma encode_inj s : forall s', Forall chunk_ok s -> Forall chunk_ok s' -> encode_segment s = encode_segment s' -> s = s'.
Proof.
  induction s as [|m s IH]; intros [|m' s'] F F'; cbn [encode_segment]; intros E; auto.
  - pose proof (enc_cases m'). lia.
  - pose proof (enc_cases m). lia.
  - inversion F; inversion F'; subst. pose proof (enc_cases m). pose proof (enc_cases m').
    assert (enc m = enc m') by lia. f_equal; [now apply enc_inj|]. apply IH; auto. lia.
Qed.
Definition bound (n : nat) : Z := 4 * ((2 ^ (4 * Z.of_nat n) - 1) / 15).
Lemma bound_S n : bound (S n) = 4 + 16 * bound n.
Proof.
  unfold bound. replace (4 * Z.of_nat (S n)) with (4 * Z.of_nat n + 4) by lia. rewrite Z.pow_add_r by lia.
  change (2 ^ 4) with 16.
  assert (D : exists q, 2 ^ (4 * Z.of_nat n) = 15 * q + 1).
  { clear. induction n as [|n [q Hq]]; [now exists 0|]. replace (4 * Z.of_nat (S n)) with (4 * Z.of_nat n + 4) by lia.
    rewrite Z.pow_add_r by lia. rewrite Hq. change (2 ^ 4) with 16. exists (16 * q + 1). lia. }
  destruct D as [q ->]. lia.
Qed.
Lemma encode_bound s : - bound (length s) <= encode_segment s <= bound (length s).
Proof.
  induction s as [|m s IH]; [reflexivity || (cbn; unfold bound; cbn; lia)|].
  cbn [encode_segment length]. rewrite bound_S. pose proof (enc_cases m). lia.
Qed.
Lemma bound_mono n m : (n <= m)%nat -> bound n <= bound m.
Proof.
  induction 1 as [|m H IH]; [lia|]. rewrite bound_S.
  assert (0 <= bound m). { clear. induction m; [reflexivity || (cbn; lia)|]. rewrite bound_S. lia. } lia.
Qed.
Lemma encode_mod_inj r c s s' : is_chunks_per_segment r c -> Forall chunk_ok s -> Forall chunk_ok s' ->
  (length s <= c)%nat -> (length s' <= c)%nat -> encode_segment s mod r = encode_segment s' mod r -> s = s'.
Proof.
  intros [HB _] F F' L L' E. apply encode_inj; auto. fold (bound c) in HB.
  pose proof (encode_bound s). pose proof (encode_bound s').
  pose proof (bound_mono _ _ L). pose proof (bound_mono _ _ L').
  destruct (Z.eq_dec r 0) as [->|Nr]; [rewrite !Zmod_0_r in E; exact E|].
  assert (0 <= bound c) by lia. assert (0 < r) by lia.
  assert (D : (encode_segment s - encode_segment s') mod r = 0).
  { rewrite Zminus_mod, E, Z.sub_diag. apply Z.mod_0_l. lia. }
  apply Z.mod_divide in D; [|lia]. destruct D as [k Hk].
  assert (-(r - 1) <= encode_segment s - encode_segment s' <= r - 1) by lia.
  assert (k = 0) by nia. subst k. lia.
Qed.
Lemma encode_mod_nonzero r c s : is_chunks_per_segment r c -> Forall chunk_ok s ->
  (0 < length s <= c)%nat -> encode_segment s mod r <> 0.
Proof.
  intros HC F L E.
  assert (s = []); [|subst; cbn in L; lia].
  apply (encode_mod_inj r c); auto; cbn; try lia.
Qed.

Lemma test_value_bound n : Z.of_N (get_test_value 3 (N.of_nat n)) = bound n.
Proof.
  unfold get_test_value, bound. change (3 + 1)%N with 4%N. change (2 ^ 4 - 1)%N with 15%N.
  rewrite N2Z.inj_mul, N2Z.inj_div. rewrite N2Z.inj_sub.
  - rewrite N2Z.inj_pow, N2Z.inj_mul, nat_N_Z. change (Z.of_N 4) with 4. change (Z.of_N 15) with 15.
    change (Z.of_N 2) with 2. change (Z.of_N 1) with 1. now rewrite (Z.mul_comm (Z.of_nat n)).
  - assert (2 ^ (N.of_nat n * 4) <> 0)%N by (apply N.pow_nonzero; discriminate). lia.
Qed.
Lemma bound_ge n : Z.of_nat n <= bound n.
Proof. induction n as [|n IH]; [reflexivity || (cbn; lia)|]. rewrite bound_S. lia. Qed.

Lemma chunks_loop_ok ub : forall fuel n, (forall m, (m <= n)%nat -> bound m <= Z.of_N ub) ->
  Z.of_N ub < Z.of_nat fuel + Z.of_nat n ->
  exists m, chunks_loop fuel 3 ub (N.of_nat n + 1) (N.of_nat n) = Some (N.of_nat m) /\ bound m <= Z.of_N ub < bound (S m).
Proof.
  induction fuel as [|f IH]; intros n Hn Hf.
  - exfalso. specialize (Hn n ltac:(lia)). pose proof (bound_ge n). lia.
  - cbn [chunks_loop]. replace (N.of_nat n + 1)%N with (N.of_nat (S n)) by lia.
    pose proof (test_value_bound (S n)) as T.
    destruct (N.leb_spec (get_test_value 3 (N.of_nat (S n))) ub).
    + apply IH; [|lia]. intros m Hm. destruct (Nat.eq_dec m (S n)) as [->|]; [lia|]. apply Hn. lia.
    + exists n. split; [reflexivity|]. split; [now apply Hn|lia].
Qed.
Lemma chunks_per_base_point_ok r : (0 < r)%N -> exists c, is_chunks_per_segment (Z.of_N r) c /\
  forall fuel, (N.to_nat r < fuel)%nat -> chunks_per_base_point fuel r 3 = Some (N.of_nat c).
Proof.
  intros Hr. set (ub := ((r - 1) / 2)%N).
  assert (EU : Z.of_N ub = (Z.of_N r - 1) / 2) by (unfold ub; lia).
  assert (G : forall fuel, (N.to_nat r < fuel)%nat ->
    exists m, chunks_per_base_point fuel r 3 = Some (N.of_nat m) /\ bound m <= Z.of_N ub < bound (S m)).
  { intros fuel Hf. apply (chunks_loop_ok ub fuel 0); [|lia]. intros m Hm. replace m with 0%nat by lia. unfold bound. cbn. lia. }
  destruct (G (S (N.to_nat r)) ltac:(lia)) as (c & E & B1 & B2). exists c. split.
  - split; [unfold bound in B1; lia|]. intros c' Hc'. fold (bound c') in Hc'.
    destruct (Nat.le_gt_cases c' c); auto. pose proof (bound_mono (S c) c' ltac:(lia)). lia.
  - intros fuel Hf. destruct (G fuel Hf) as (m & E' & M1 & M2). rewrite E'. do 2 f_equal.
    destruct (Nat.lt_trichotomy m c) as [H|[H|H]]; auto; exfalso.
    + pose proof (bound_mono (S m) c ltac:(lia)). lia.
    + pose proof (bound_mono (S c) m ltac:(lia)). lia.
Qed.
