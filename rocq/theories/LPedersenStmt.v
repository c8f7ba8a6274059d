(** The statements of PPedersen.v. *)
From Coq Require Import NArith ZArith Arith List Bool Lia ZifyBool ZifyNat ZifyN.
From Verif Require Import SpecStream LStream MAcc SpecPedersen MPedersen LPedersen.
Import ListNotations.
Ltac Zify.zify_post_hook ::= Z.div_mod_to_equations.

Lemma groups_shape {A} n (l : list A) : 0 < n -> Forall (fun g => 0 < length g <= n) (groups n l) /\ concat (groups n l) = l.
Proof.
  intros Hn. unfold groups. pose proof (Nat.mod_upper_bound (length l) n ltac:(lia)).
  pose proof (Nat.div_mod (length l) n ltac:(lia)).
  assert (E : l = firstn (length l / n * n) l ++ skipn (length l / n * n) l) by (symmetry; apply firstn_skipn).
  assert (L1 : length (firstn (length l / n * n) l) = length l / n * n) by (rewrite firstn_length; lia).
  assert (EC : chunks n l = chunks n (firstn (length l / n * n) l)).
  { rewrite E at 1. rewrite chunks_app; auto.
    - rewrite (chunks_lt n (skipn _ l)); [apply app_nil_r|]. rewrite skipn_length. lia.
    - rewrite L1. apply Nat.mod_mul. lia. }
  split.
  - apply Forall_app. split.
    + eapply Forall_impl; [|apply chunks_Forall; lia]. cbn. lia.
    + destruct (Nat.eqb_spec (length l mod n) 0); [constructor|]. constructor; [|constructor]. rewrite skipn_length. lia.
  - rewrite concat_app, EC, chunks_concat; auto.
    2:{ rewrite L1. apply Nat.mod_mul. lia. }
    destruct (Nat.eqb_spec (length l mod n) 0) as [Z|Z].
    + cbn [concat]. rewrite app_nil_r. rewrite firstn_all2; [reflexivity|lia].
    + cbn [concat]. rewrite app_nil_r. now rewrite <- E.
Qed.
Lemma groups_exact {A} n (l : list A) : 0 < n -> length l mod n = 0 -> Forall (fun g => length g = n) (groups n l).
Proof.
  intros Hn Hl. unfold groups. rewrite Hl. cbn [Nat.eqb]. rewrite app_nil_r. now apply chunks_Forall.
Qed.
Lemma Forall_concat_inv {A} (P : A -> Prop) (ls : list (list A)) : Forall P (concat ls) -> Forall (Forall P) ls.
Proof. induction ls as [|l ls IH]; intros F; [constructor|]. cbn in F. apply Forall_app in F. destruct F. constructor; auto. Qed.

Lemma pad3_mod M : length (pad3 M) mod 3 = 0.
Proof.
  unfold pad3. rewrite app_length, repeat_length. destruct M as [|b M]; [reflexivity|]. cbn [length]. lia.
Qed.
Lemma segments_shape c M : 0 < c ->
  segments c (pad3 M) <> [] /\ Forall (fun s => 0 < length s <= c /\ Forall chunk_ok s) (segments c (pad3 M)).
Proof.
  intros Hc. unfold segments. destruct (groups_shape c (groups 3 (pad3 M)) Hc) as [G1 G2].
  destruct (groups_shape 3 (pad3 M) ltac:(lia)) as [_ G3].
  pose proof (groups_exact 3 (pad3 M) ltac:(lia) (pad3_mod M)) as G4.
  split.
  - intros E. rewrite E in G2. cbn [concat] in G2. rewrite <- G2 in G3. cbn [concat] in G3. symmetry in G3. now apply pad3_ne in G3.
  - rewrite <- G2 in G4. apply Forall_concat_inv in G4.
    rewrite Forall_forall in G1, G4 |- *. intros s Hs. split; [now apply G1|now apply G4].
Qed.
Lemma last_In {A} (l : list A) d : l <> [] -> In (last l d) l.
Proof. intros Hn. rewrite (app_removelast_last d Hn) at 2. apply in_or_app. right. now left. Qed.

Section S.
Context {G : Type} (zero : G) (add : G -> G -> G) (mul : Z -> G -> G) (base : N -> G) (p : Z) (width c : nat).
Notation I := (fun i => base (N.of_nat i)).
Notation run := (p_run add mul base p width (N.of_nat c)).

Lemma histories ops : group_laws zero add -> (0 < p)%Z ->
  (forall i z, mul (z mod p)%Z (base i) = mul z (base i)) ->
  2 <= c -> (16 ^ (Z.of_nat c - 1) < 2 ^ Z.of_nat width)%Z ->
  (N.of_nat (length (final_message [] ops)) < 2 ^ 64)%N ->
  (N.of_nat (length (final_message [] ops)) <= N.of_nat (3 * c) * 2 ^ 32)%N ->
  run (p_init zero base) ops = Some (pedersen_actual zero add mul I c [] zero ops).
Proof.
  intros HG Hp Hm Hc HW H1 H2.
  apply (run_ok zero add mul base p width c HG Hp Hm Hc HW ops _ _ _ [] []); [|split; [exact H1|now left]].
  now apply inv_init.
Qed.

Lemma once_extra pieces rest : forall M,
  pedersen_actual zero add mul I c M zero (map PUpdate pieces ++ rest) = pedersen_actual zero add mul I c (M ++ concat pieces) zero rest.
Proof.
  induction pieces as [|b pieces IH]; intros M; cbn [map app pedersen_actual concat].
  - now rewrite app_nil_r.
  - now rewrite IH, <- app_assoc.
Qed.
Lemma once_final pieces rest : forall M, final_message M (map PUpdate pieces ++ rest) = final_message (M ++ concat pieces) rest.
Proof.
  induction pieces as [|b pieces IH]; intros M; cbn [map app final_message concat].
  - now rewrite app_nil_r.
  - now rewrite IH, <- app_assoc.
Qed.

Lemma once pieces : group_laws zero add -> (0 < p)%Z ->
  (forall i z, mul (z mod p)%Z (base i) = mul z (base i)) ->
  2 <= c -> (16 ^ (Z.of_nat c - 1) < 2 ^ Z.of_nat width)%Z ->
  (N.of_nat (length (pad3 (concat pieces))) < 2 ^ 64)%N ->
  (N.of_nat (length (pad3 (concat pieces))) <= N.of_nat (3 * c) * 2 ^ 32)%N ->
  run (p_init zero base) (map PUpdate pieces ++ [PExtract]) =
  Some [pedersen_to_point zero add mul I c (concat pieces)].
Proof.
  intros HG Hp Hm Hc HW H1 H2. rewrite histories; auto; try (rewrite once_final; assumption).
  rewrite once_extra. cbn [pedersen_actual app]. destruct HG as [GA GC GZ]. now rewrite GC, GZ.
Qed.

Lemma never_repeatable M : group_laws zero add -> (forall x y, add x y = x -> y = zero) -> (0 < p)%Z ->
  (forall i z, mul (z mod p)%Z (base i) = mul z (base i)) ->
  (forall i z, mul z (base i) = zero -> (z mod p = 0)%Z) ->
  is_chunks_per_segment p c ->
  2 <= c -> (16 ^ (Z.of_nat c - 1) < 2 ^ Z.of_nat width)%Z ->
  (N.of_nat (length (pad3 M)) < 2 ^ 64)%N ->
  (N.of_nat (length (pad3 M)) <= N.of_nat (3 * c) * 2 ^ 32)%N ->
  exists g g', run (p_init zero base) [PUpdate M; PExtract; PExtract] = Some [g; g'] /\ g <> g'.
Proof.
  intros HG HX Hp Hm Ho HC Hc HW H1 H2.
  eexists _, _. split.
  - apply (histories [PUpdate M; PExtract; PExtract] HG Hp Hm Hc HW); cbn [final_message app]; rewrite pad3_idem; assumption.
  - cbn [app]. destruct HG as [GA GC GZ]. rewrite GZ, (GC _ zero), GZ.
    assert (EP : pedersen_to_point zero add mul I c (pad3 M) = pedersen_to_point zero add mul I c M)
      by (unfold pedersen_to_point; now rewrite pad3_idem).
    rewrite EP. intros E. symmetry in E. apply HX in E. unfold last_term in E.
    destruct (segments_shape c M ltac:(lia)) as [S1 S2].
    apply Ho in E. revert E. rewrite Forall_forall in S2. destruct (S2 _ (last_In _ [] S1)).
    now apply (encode_mod_nonzero p c).
Qed.
End S.

Lemma chunks_loop_more f : forall f' b u c prev m, chunks_loop f b u c prev = Some m -> f <= f' -> chunks_loop f' b u c prev = Some m.
Proof.
  induction f as [|f IH]; intros f' b u c prev m E Hf; [discriminate|]. destruct f' as [|f']; [lia|].
  cbn [chunks_loop] in *. destruct (_ <=? u)%N; [apply IH; auto; lia|exact E].
Qed.
Lemma chunks_value fuel r c : (0 < r)%N -> chunks_per_base_point fuel r 3 = Some (N.of_nat c) ->
  is_chunks_per_segment (Z.of_N r) c.
Proof.
  intros Hr E. destruct (chunks_per_base_point_ok r Hr) as (m & HM & HF).
  pose proof (HF (S (N.to_nat r) + fuel) ltac:(lia)) as E1. unfold chunks_per_base_point in *.
  rewrite (chunks_loop_more _ (S (N.to_nat r) + fuel) _ _ _ _ _ E) in E1 by lia. injection E1 as E1.
  apply Nnat.Nat2N.inj in E1. now subst.
Qed.
Lemma segments_distinct fuel r c s s' : (0 < r)%N -> chunks_per_base_point fuel r 3 = Some (N.of_nat c) ->
  Forall chunk_ok s -> Forall chunk_ok s' -> length s <= c -> length s' <= c -> s <> s' ->
  (encode_segment s mod Z.of_N r <> encode_segment s' mod Z.of_N r)%Z.
Proof. intros Hr E F F' L L' Hn E'. apply Hn. eapply encode_mod_inj; eauto using chunks_value. Qed.
Lemma segments_nonzero fuel r c s : (0 < r)%N -> chunks_per_base_point fuel r 3 = Some (N.of_nat c) ->
  Forall chunk_ok s -> 0 < length s <= c -> (encode_segment s mod Z.of_N r <> 0)%Z.
Proof. intros Hr E F L. eapply encode_mod_nonzero; eauto using chunks_value. Qed.

(** An example group: the integers modulo 139. *)
Definition z139 : Type := {x : Z | (x mod 139 =? x)%Z = true}.
Lemma z139_mod x : ((x mod 139) mod 139 =? x mod 139)%Z = true.
Proof. lia. Qed.
Definition of_Z (x : Z) : z139 := exist _ (x mod 139)%Z (z139_mod x).
Definition add139 (x y : z139) : z139 := of_Z (proj1_sig x + proj1_sig y).
Definition mul139 (z : Z) (x : z139) : z139 := of_Z (z * proj1_sig x).
Definition base139 (i : N) : z139 := of_Z (1 + Z.of_N i mod 138).
Lemma z139_eq (x y : z139) : proj1_sig x = proj1_sig y -> x = y.
Proof.
  destruct x as [x Hx], y as [y Hy]. cbn. intros E. subst y. f_equal. apply Eqdep_dec.UIP_dec. apply bool_dec.
Qed.
Lemma z139_laws : group_laws (of_Z 0) add139.
Proof.
  constructor.
  - intros x y z. apply z139_eq. unfold add139, of_Z. cbn [proj1_sig]. lia.
  - intros x y. apply z139_eq. unfold add139, of_Z. cbn [proj1_sig]. lia.
  - intros [x Hx]. apply z139_eq. unfold add139, of_Z. cbn [proj1_sig]. lia.
Qed.
Lemma z139_cancel x y : add139 x y = x -> y = of_Z 0.
Proof.
  intros E. apply z139_eq. apply (f_equal (@proj1_sig _ _)) in E. destruct x as [x Hx], y as [y Hy].
  unfold add139, of_Z in *. cbn [proj1_sig] in *. lia.
Qed.
Lemma z139_mul i z : mul139 (z mod 139) (base139 i) = mul139 z (base139 i).
Proof.
  apply z139_eq. unfold mul139, of_Z. cbn [proj1_sig]. now rewrite Z.mul_mod_idemp_l.
Qed.
Lemma inv139 b : (1 <= b <= 138)%Z -> exists v, ((b * v) mod 139 = 1)%Z.
Proof.
  intros Hb.
  assert (F : forallb (fun b => existsb (fun v => (b * v) mod 139 =? 1)%Z (map Z.of_nat (seq 0 139))) (map Z.of_nat (seq 1 138)) = true)
    by (vm_compute; reflexivity).
  rewrite forallb_forall in F. specialize (F b). 
  assert (I : In b (map Z.of_nat (seq 1 138))).
  { replace b with (Z.of_nat (Z.to_nat b)) by lia. apply in_map, in_seq. lia. }
  apply F, existsb_exists in I. destruct I as (v & _ & E). exists v. lia.
Qed.
Lemma z139_order i z : mul139 z (base139 i) = of_Z 0 -> (z mod 139 = 0)%Z.
Proof.
  intros E. apply (f_equal (@proj1_sig _ _)) in E. unfold mul139, base139, of_Z in E. cbn [proj1_sig] in E.
  assert (B : (1 <= 1 + Z.of_N i mod 138 <= 138)%Z) by lia.
  destruct (inv139 _ B) as [v V]. rewrite (Z.mod_small (1 + Z.of_N i mod 138)) in E by lia.
  set (b := (1 + Z.of_N i mod 138)%Z) in *. clearbody b.
  assert (E1 : ((z * b * v) mod 139 = 0)%Z).
  { rewrite <- Z.mul_mod_idemp_l, E by lia. reflexivity. }
  rewrite <- Z.mul_assoc, <- Z.mul_mod_idemp_r, V, Z.mul_1_r in E1 by lia. exact E1.
Qed.
Lemma c139 : is_chunks_per_segment 139 2.
Proof. apply (chunks_value 10 139 2); reflexivity. Qed.
