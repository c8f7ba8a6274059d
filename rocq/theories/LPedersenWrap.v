(** Pedersen hash: more than 2^32 segments. *)
From Coq Require Import NArith ZArith Arith List Bool Lia ZifyBool ZifyNat ZifyN.
From Verif Require Import SpecStream LStream MAcc SpecPedersen MPedersen LPedersen LPedersenStmt LPedersenRel.
Import ListNotations.
Ltac Zify.zify_post_hook ::= Z.div_mod_to_equations.

(** Only the base points below 2^32 are used. *)
Section Cong.
Context {G : Type} (zero : G) (add : G -> G -> G) (mul : Z -> G -> G) (base base' : N -> G).
Context (p : Z) (width : nat) (c : N).
Context (HB : forall i, base (i mod 2 ^ 32)%N = base' (i mod 2 ^ 32)%N).
Lemma update_bit_cong a b : update_bit add mul base p width c a b = update_bit add mul base' p width c a b.
Proof.
  unfold update_bit. destruct (length _ =? 3); [|reflexivity].
  set (a1 := Mk_pacc _ _ _ _ _ _). destruct (is_time c a1) as [[|]|]; try reflexivity.
  unfold update_new_segment. destruct (_ =? 0)%N; [reflexivity|].
  destruct (is_time c (update_result add mul a1)) as [[|]|]; try reflexivity.
  destruct (supplied_chunks (update_result add mul a1)) as [s|]; [|reflexivity]. now rewrite HB.
Qed.
Lemma update_bits_cong bs : forall a, update_bits add mul base p width c a bs = update_bits add mul base' p width c a bs.
Proof.
  induction bs as [|b bs IH]; intros a; cbn [update_bits]; [reflexivity|]. rewrite update_bit_cong.
  destruct (update_bit _ _ _ _ _ _ _ _); auto.
Qed.
Lemma pad_loop_cong f : forall a, pad_loop add mul base p width c f a = pad_loop add mul base' p width c f a.
Proof.
  induction f as [|f IH]; intros a; cbn [pad_loop]; [reflexivity|]. destruct (_ || _)%bool; [|reflexivity].
  rewrite update_bit_cong. destruct (update_bit _ _ _ _ _ _ _ _); auto.
Qed.
Lemma p_run_cong ops : forall a, p_run add mul base p width c a ops = p_run add mul base' p width c a ops.
Proof.
  induction ops as [|[bs|] ops IH]; intros a; cbn [p_run]; [reflexivity| |].
  - rewrite update_bits_cong. destruct (update_bits _ _ _ _ _ _ _ _); auto.
  - unfold p_process. rewrite pad_loop_cong. destruct (pad_loop _ _ _ _ _ _ _ _); [|reflexivity]. cbv zeta. now rewrite IH.
Qed.
End Cong.

Section S.
Context {G : Type} (zero : G) (add : G -> G -> G) (mul : Z -> G -> G) (base : N -> G) (p : Z) (width c : nat).
Notation base' := (fun i : N => base (i mod 2 ^ 32)%N).
Notation I := (fun i => base (N.of_nat i mod 2 ^ 32)%N).

Lemma histories_any ops : group_laws zero add -> (0 < p)%Z ->
  (forall i z, mul (z mod p)%Z (base i) = mul z (base i)) ->
  2 <= c -> (16 ^ (Z.of_nat c - 1) < 2 ^ Z.of_nat width)%Z ->
  (N.of_nat (length (final_message [] ops)) < 2 ^ 64)%N ->
  p_run add mul base p width (N.of_nat c) (p_init zero base) ops = Some (pedersen_actual zero add mul I c [] zero ops).
Proof.
  intros HG Hp Hm Hc HW H1.
  rewrite (p_run_cong add mul base base') by (intros i; now rewrite N.mod_mod by discriminate).
  apply (run_ok zero add mul base' p width c HG Hp ltac:(intros; apply Hm) Hc HW ops _ _ _ [] []).
  - change (p_init zero base) with (p_init zero base'). now apply inv_init.
  - split; [exact H1|]. right. intros i. now rewrite N.mod_mod by discriminate.
Qed.
Lemma run_once_any {B} (pack : G -> B) pieces : group_laws zero add -> (0 < p)%Z ->
  (forall i z, mul (z mod p)%Z (base i) = mul z (base i)) ->
  2 <= c -> (16 ^ (Z.of_nat c - 1) < 2 ^ Z.of_nat width)%Z ->
  (N.of_nat (length (pad3 (concat pieces))) < 2 ^ 64)%N ->
  pedersen_run zero add mul base p width (N.of_nat c) pack (map PUpdate pieces ++ [PExtract]) =
  Some [pack (pedersen_to_point zero add mul I c (concat pieces))].
Proof.
  intros HG Hp Hm Hc HW H1. unfold pedersen_run. rewrite histories_any; auto.
  - rewrite (once_extra zero add mul base' c). cbn [app pedersen_actual map].
    destruct HG as [GA GC GZ]. now rewrite GC, GZ.
  - rewrite once_final. exact H1.
Qed.
Lemma sum_app segs segs' : forall (HG : group_laws zero add) i, sum_segments zero add mul I i (segs ++ segs') =
  add (sum_segments zero add mul I i segs) (sum_segments zero add mul I (i + length segs) segs').
Proof.
  induction segs as [|s segs IH]; intros HG i; cbn [app sum_segments length].
  - destruct HG as [GA GC GZ]. now rewrite GZ, Nat.add_0_r.
  - rewrite IH by auto. destruct HG as [GA GC GZ]. rewrite GA. do 2 f_equal. lia.
Qed.
Lemma segments_cons A Y : 0 < c -> length A = 3 * c -> segments c (A ++ Y) = groups 3 A :: segments c Y.
Proof.
  intros Hc HA. unfold segments.
  assert (H3 : length A mod 3 = 0) by lia.
  pose proof (groups_exact 3 A ltac:(lia) H3) as F. destruct (groups_shape 3 A ltac:(lia)) as [_ E].
  rewrite <- E at 1. rewrite groups_concat by (auto; lia). apply groups_cons; [lia|].
  apply (f_equal (@length bool)) in E. rewrite (concat_length 3) in E by exact F. lia.
Qed.
Lemma segments_app n : forall X Y, 0 < c -> length X = n * (3 * c) ->
  segments c (X ++ Y) = segments c X ++ segments c Y /\ length (segments c X) = n.
Proof.
  induction n as [|n IH]; intros X Y Hc HX.
  - destruct X; [|discriminate]. unfold segments. rewrite !groups_nil. split; reflexivity.
  - assert (L : length (firstn (3 * c) X) = 3 * c) by (rewrite firstn_length; lia).
    destruct (IH (skipn (3 * c) X) Y Hc) as [E1 E2].
    { rewrite skipn_length. lia. }
    pose proof (segments_cons (firstn (3 * c) X) (skipn (3 * c) X ++ Y) Hc L) as K1.
    pose proof (segments_cons (firstn (3 * c) X) (skipn (3 * c) X) Hc L) as K2.
    rewrite app_assoc, firstn_skipn in K1. rewrite firstn_skipn in K2.
    rewrite K1, K2, E1. cbn [app length]. split; [reflexivity|now rewrite E2].
Qed.
Lemma swap {B} (pack : G -> B) A X A' R : group_laws zero add -> (0 < p)%Z ->
  (forall i z, mul (z mod p)%Z (base i) = mul z (base i)) ->
  2 <= c -> (16 ^ (Z.of_nat c - 1) < 2 ^ Z.of_nat width)%Z ->
  length A = 3 * c -> length A' = 3 * c -> (N.of_nat (length X) = (2 ^ 32 - 1) * N.of_nat (3 * c))%N ->
  (N.of_nat (length (pad3 (A ++ X ++ A' ++ R))) < 2 ^ 64)%N ->
  exists d,
  pedersen_run zero add mul base p width (N.of_nat c) pack [PUpdate (A ++ X ++ A' ++ R); PExtract] = Some [d] /\
  pedersen_run zero add mul base p width (N.of_nat c) pack [PUpdate (A' ++ X ++ A ++ R); PExtract] = Some [d].
Proof.
  intros HG Hp Hm Hc HW HA HA' HX HL.
  assert (Len : length (A' ++ X ++ A ++ R) = length (A ++ X ++ A' ++ R)) by (rewrite !app_length; lia).
  assert (NE : forall P Q : list bool, length P = 3 * c -> P ++ Q <> []).
  { intros P Q HP Z. apply (f_equal (@length bool)) in Z. rewrite app_length in Z. cbn [length] in Z. lia. }
  assert (Nd : need (A' ++ X ++ A ++ R) = need (A ++ X ++ A' ++ R)).
  { unfold need. rewrite Len. pose proof (NE A (X ++ A' ++ R) HA). pose proof (NE A' (X ++ A ++ R) HA').
    destruct (A ++ X ++ A' ++ R); [congruence|]. destruct (A' ++ X ++ A ++ R); [congruence|]. reflexivity. }
  assert (HL' : (N.of_nat (length (pad3 (A' ++ X ++ A ++ R))) < 2 ^ 64)%N).
  { rewrite pad3_need, app_length, repeat_length, Nd, Len. rewrite pad3_need, app_length, repeat_length in HL. exact HL. }
  pose proof (run_once_any pack [A ++ X ++ A' ++ R] HG Hp Hm Hc HW) as E1.
  pose proof (run_once_any pack [A' ++ X ++ A ++ R] HG Hp Hm Hc HW) as E2.
  cbn [concat map app] in E1, E2. rewrite app_nil_r in E1, E2. specialize (E1 HL). specialize (E2 HL').
  eexists. split; [exact E1|]. rewrite E2. do 3 f_equal. clear E1 E2 HL HL'.
  unfold pedersen_to_point. rewrite !pad3_need, Nd, <- !app_assoc. set (Z := repeat false _). clearbody Z.
  rewrite !(segments_cons A), !(segments_cons A') by (auto; lia).
  set (n := N.to_nat (2 ^ 32 - 1)). assert (Hn : length X = n * (3 * c)).
  { unfold n. apply Nat2N.inj. rewrite HX, (Nat2N.inj_mul (N.to_nat (2 ^ 32 - 1)) (3 * c)), N2Nat.id. reflexivity. }
  assert (Hn' : N.of_nat n = (2 ^ 32 - 1)%N) by apply N2Nat.id. clearbody n.
  destruct (segments_app n X (A ++ R ++ Z) ltac:(lia) Hn) as [S1 S2].
  destruct (segments_app n X (A' ++ R ++ Z) ltac:(lia) Hn) as [S3 _].
  rewrite S1, S3. rewrite (segments_cons A), (segments_cons A') by (auto; lia).
  cbn [sum_segments]. rewrite !sum_app by exact HG. cbn [sum_segments]. rewrite S2.
  assert (EI : (N.of_nat (1 + n) mod 2 ^ 32 = N.of_nat 0 mod 2 ^ 32)%N).
  { replace (N.of_nat (1 + n)) with (2 ^ 32)%N by lia. reflexivity. }
  rewrite EI. destruct HG as [GA GC GZ].
  set (x := mul _ _). set (y := sum_segments _ _ _ _ _ (segments c X)). set (z := mul _ _). set (t := sum_segments _ _ _ _ _ _).
  rewrite !GA. f_equal. now rewrite (GC (add x y) z), (GC x y), GA.
Qed.
End S.

Definition zeros_of_length (n : N) : list bool := repeat false (N.to_nat n).
Lemma wrap_example : let A := repeat false 6 in let A' := repeat true 6 in let X := zeros_of_length ((2 ^ 32 - 1) * 6) in
  A <> A' /\ length A = 3 * 2 /\ length A' = 3 * 2 /\ (N.of_nat (length X) = (2 ^ 32 - 1) * N.of_nat (3 * 2))%N /\
  (N.of_nat (length (pad3 (A ++ X ++ A' ++ []))) < 2 ^ 64)%N.
Proof.
  cbv zeta. assert (L : length (zeros_of_length ((2 ^ 32 - 1) * 6)) = N.to_nat ((2 ^ 32 - 1) * 6)) by apply repeat_length.
  split; [discriminate|]. split; [reflexivity|]. split; [reflexivity|]. split.
  - rewrite L, N2Nat.id. reflexivity.
  - rewrite pad3_need, app_length, repeat_length, !app_length, L, !repeat_length. cbn [length].
    pose proof (need_le (repeat false 6 ++ zeros_of_length ((2 ^ 32 - 1) * 6) ++ repeat true 6 ++ [])) as H.
    set (k := need _) in *. clearbody k. lia.
Qed.
