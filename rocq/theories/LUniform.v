(** Field elements from uniform octets: proofs. *)
From Coq Require Import NArith Arith List Bool Lia ZifyBool ZifyNat ZifyN ZArith.
From Verif Require Import SpecStream LStream SpecWords SpecXmd SpecUniform LMDStmt LCrc2.
Import ListNotations.
Ltac Zify.zify_post_hook ::= Z.div_mod_to_equations.

(** ** One coordinate *)
Lemma le_value_bound os : Forall (fits 8) os -> (le_value os < 256 ^ N.of_nat (length os))%N.
Proof.
  induction os as [|o os IH]; intros F; [reflexivity|]. inversion F as [|? ? Fo Fs]; subst. cbn [le_value length].
  specialize (IH Fs). unfold fits in Fo. change (2 ^ N.of_nat 8)%N with 256%N in Fo.
  replace (N.of_nat (S (length os))) with (N.succ (N.of_nat (length os))) by lia. rewrite N.pow_succ_r'. lia.
Qed.
Lemma octets_of_value os : Forall (fits 8) os -> octets_le (length os) (le_value os) = os.
Proof.
  induction os as [|o os IH]; intros F; [reflexivity|]. inversion F as [|? ? Fo Fs]; subst. cbn [le_value length octets_le].
  unfold fits in Fo. change (2 ^ N.of_nat 8)%N with 256%N in Fo. f_equal.
  - rewrite N.mul_comm, N.mod_add by discriminate. now apply N.mod_small.
  - rewrite N.mul_comm, N.div_add by discriminate. rewrite N.div_small by exact Fo. now apply IH.
Qed.
Lemma pow256 n : (2 ^ N.of_nat (8 * n) = 256 ^ N.of_nat n)%N.
Proof. change 256%N with (2 ^ 8)%N. rewrite <- N.pow_mul_r. f_equal. lia. Qed.

Section One.
Context (p : N) (L : nat) (Hp : p <> 0%N).
Notation B := (256 ^ N.of_nat L)%N.
(** How many numbers below B are r modulo p. *)
Definition hits (r : N) : nat := N.to_nat (B / p) + (if (r <? B mod p)%N then 1 else 0).
Definition strings (r : N) : list (list N) := map (fun i => rev (octets_le L (r + p * N.of_nat i))) (seq 0 (hits r)).
Lemma hit_below r i : (r < p)%N -> (i < hits r <-> (r + p * N.of_nat i < B)%N).
Proof.
  intros Hr. unfold hits. pose proof (N.div_mod B p Hp) as D. pose proof (N.mod_lt B p Hp) as M.
  set (q := (B / p)%N) in *. set (s := (B mod p)%N) in *. clearbody q s. rewrite D. clear D.
  destruct (N.ltb_spec r s); split; intros K; nia.
Qed.
Lemma strings_in r u : (r < p)%N -> (In u (strings r) <-> octet_string L u /\ (OS2IP u mod p = r)%N).
Proof.
  intros Hr. unfold strings. rewrite in_map_iff. split.
  - intros (i & <- & Hi). apply in_seq in Hi. destruct Hi as [_ Hi]. cbn [Nat.add] in Hi. apply (hit_below r i Hr) in Hi.
    split; [split; [now rewrite rev_length, octets_le_length|apply Forall_rev, octets_le_fits]|].
    unfold OS2IP, be_value. rewrite rev_involutive, octets_value by (unfold fits; now rewrite pow256).
    rewrite N.mul_comm, N.mod_add by exact Hp. now apply N.mod_small.
  - intros ((Lu & Fu) & E). exists (N.to_nat (OS2IP u / p)). rewrite N2Nat.id.
    assert (V : (r + p * (OS2IP u / p) = OS2IP u)%N) by (rewrite <- E; rewrite (N.div_mod (OS2IP u) p Hp) at 3; lia).
    rewrite V. split.
    + unfold OS2IP, be_value. rewrite <- Lu, <- (rev_length u), octets_of_value by now apply Forall_rev. apply rev_involutive.
    + apply in_seq. split; [apply Nat.le_0_l|]. cbn [Nat.add]. apply (hit_below r _ Hr). rewrite N2Nat.id, V.
      unfold OS2IP, be_value. rewrite <- Lu, <- (rev_length u). apply le_value_bound. now apply Forall_rev.
Qed.
Lemma strings_nodup r : (r < p)%N -> NoDup (strings r).
Proof.
  intros Hr. unfold strings. assert (S : forall i, In i (seq 0 (hits r)) -> (r + p * N.of_nat i < B)%N).
  { intros i Hi. apply in_seq in Hi. apply (hit_below r i Hr). lia. }
  revert S. generalize (seq_NoDup (hits r) 0). generalize (seq 0 (hits r)). intros l ND S.
  induction ND as [|i l NI ND IH]; [constructor|]. cbn [map]. constructor; [|apply IH; intros; apply S; now right].
  rewrite in_map_iff. intros (j & E & Hj). apply (f_equal (@rev N)) in E. rewrite !rev_involutive in E.
  apply (f_equal le_value) in E. rewrite !octets_value in E by (unfold fits; rewrite pow256; apply S; cbn; auto).
  assert (i = j) by nia. subst. contradiction.
Qed.
Lemma strings_length r : length (strings r) = hits r.
Proof. unfold strings. now rewrite map_length, seq_length. Qed.
End One.

Lemma skipn_twice {A} n : forall m (l : list A), skipn n (skipn m l) = skipn (n + m) l.
Proof. induction m as [|m IH]; intros l; [now rewrite Nat.add_0_r|]. rewrite Nat.add_succ_r. destruct l; [now rewrite skipn_nil|]. cbn [skipn]. apply IH. Qed.
Lemma Forall_skipn_ {A} (P : A -> Prop) n (l : list A) : Forall P l -> Forall P (skipn n l).
Proof. intros H. rewrite <- (firstn_skipn n l) in H. now apply Forall_app in H. Qed.
Lemma Forall_firstn_ {A} (P : A -> Prop) n (l : list A) : Forall P l -> Forall P (firstn n l).
Proof. intros H. rewrite <- (firstn_skipn n l) in H. now apply Forall_app in H. Qed.

(** ** Strings made of pieces of one length *)
Section Product.
Context (L : nat).
Fixpoint cart (Xs : list (list (list N))) : list (list N) :=
  match Xs with [] => [[]] | X :: Xs' => flat_map (fun a => map (app a) (cart Xs')) X end.
Lemma cart_in Xs : Forall (Forall (octet_string L)) Xs -> forall u,
  In u (cart Xs) <-> octet_string (length Xs * L) u /\ forall i, i < length Xs -> In (firstn L (skipn (L * i) u)) (nth i Xs []).
Proof.
  induction Xs as [|X Xs IH]; intros F u.
  - cbn [cart In length]. split.
    + intros [<-|[]]. split; [split; [reflexivity|constructor]|]. intros i Hi. lia.
    + intros ((Lu & _) & _). left. now destruct u.
  - inversion F as [|? ? FX FXs]; subst. specialize (IH FXs). cbn [cart]. rewrite in_flat_map. split.
    + intros (a & Ha & Hu). apply in_map_iff in Hu. destruct Hu as (v & <- & Hv). apply IH in Hv. destruct Hv as ((Lv & Fv) & Hv).
      pose proof (proj1 (Forall_forall _ _) FX a Ha) as (La & Fa). split.
      * split; [rewrite app_length; cbn [length]; lia|]. now apply Forall_app.
      * intros [|i] Hi; cbn [length nth] in *.
        -- rewrite Nat.mul_0_r. cbn [skipn]. rewrite firstn_app, La, Nat.sub_diag, firstn_all2 by lia. cbn [firstn]. now rewrite app_nil_r.
        -- replace (L * S i) with (L + L * i) by lia. rewrite skipn_app, La.
           rewrite (skipn_all2 a) by lia. replace (L + L * i - L) with (L * i) by lia. apply Hv. lia.
    + intros ((Lu & Fu) & H). cbn [length] in *. exists (firstn L u). split.
      * specialize (H 0 ltac:(lia)). rewrite Nat.mul_0_r in H. exact H.
      * apply in_map_iff. exists (skipn L u). split; [apply firstn_skipn|]. apply IH. split.
        -- split; [rewrite skipn_length; lia|]. rewrite <- (firstn_skipn L u) in Fu. now apply Forall_app in Fu.
        -- intros i Hi. rewrite skipn_twice. replace (L * i + L) with (L * S i) by lia. apply (H (S i)). lia.
Qed.
Lemma cart_nodup Xs : Forall (Forall (octet_string L)) Xs -> Forall (@NoDup (list N)) Xs -> NoDup (cart Xs).
Proof.
  induction Xs as [|X Xs IH]; intros F D; [repeat constructor; auto|]. inversion F as [|? ? FX FXs]; inversion D as [|? ? DX DXs]; subst.
  specialize (IH FXs DXs). cbn [cart]. clear F D FXs DXs. induction DX as [|a X NI DX IHX]; [constructor|].
  inversion FX as [|? ? Ha FX']; subst. cbn [flat_map].
  assert (A : forall l1 l2 : list (list N), NoDup l1 -> NoDup l2 -> (forall x, In x l1 -> ~ In x l2) -> NoDup (l1 ++ l2)).
  { clear. induction l1 as [|x l1 IH]; intros l2 D1 D2 H; [exact D2|]. inversion D1; subst. cbn [app]. constructor.
    - rewrite in_app_iff. intros [K|K]; [contradiction|]. apply (H x); [now left|exact K].
    - apply IH; auto. intros y Hy. apply H. now right. }
  apply A; [| now apply IHX |].
  - assert (I : forall l, NoDup l -> NoDup (map (app a) l)).
    { clear. induction l as [|x l IH]; intros D; [constructor|]. inversion D; subst. cbn [map]. constructor; [|auto].
      rewrite in_map_iff. intros (y & E & Hy). apply app_inv_head in E. now subst. }
    now apply I.
  - intros u Hu Hu'. apply in_map_iff in Hu. destruct Hu as (v & <- & _). apply in_flat_map in Hu'.
    destruct Hu' as (b & Hb & Hv). apply in_map_iff in Hv. destruct Hv as (v' & E & _).
    pose proof (proj1 (Forall_forall _ _) FX' b Hb) as (Lb & _). destruct Ha as (La & _).
    assert (a = b); [|subst; contradiction].
    apply (f_equal (firstn L)) in E. rewrite !firstn_app, La, Lb, Nat.sub_diag in E. rewrite (firstn_all2 a), (firstn_all2 b) in E by lia. cbn [firstn] in E.
    rewrite !app_nil_r in E. now symmetry.
Qed.
Lemma cart_length q Xs : Forall (fun X => q <= N.of_nat (length X) <= q + 1)%N Xs ->
  (q ^ N.of_nat (length Xs) <= N.of_nat (length (cart Xs)) <= (q + 1) ^ N.of_nat (length Xs))%N.
Proof.
  induction Xs as [|X Xs IH]; intros F; [cbn; lia|]. inversion F as [|? ? FX FXs]; subst. specialize (IH FXs). cbn [cart length].
  assert (E : length (flat_map (fun a => map (app a) (cart Xs)) X) = length X * length (cart Xs)).
  { clear. induction X as [|a X IH]; [reflexivity|]. cbn [flat_map length]. rewrite app_length, map_length, IH. reflexivity. }
  rewrite E, Nat2N.inj_mul. replace (N.of_nat (S (length Xs))) with (N.succ (N.of_nat (length Xs))) by lia.
  rewrite !N.pow_succ_r'. split; apply N.mul_le_mono; lia.
Qed.
End Product.

(** ** Elements *)
Lemma nth_map_seq {A} (f : nat -> A) n i d : i < n -> nth i (map f (seq 0 n)) d = f i.
Proof. intros H. rewrite (nth_indep _ d (f 0)) by (now rewrite map_length, seq_length). now rewrite map_nth, seq_nth. Qed.
Lemma nth_concat m : forall (rows : list (list N)) i j, Forall (fun r => length r = m) rows -> i < length rows -> j < m ->
  nth (j + i * m) (concat rows) 0%N = nth j (nth i rows []) 0%N.
Proof.
  induction rows as [|r rows IH]; intros i j F Hi Hj; cbn [length] in Hi; [lia|]. inversion F as [|? ? Hr F']; subst. cbn [concat].
  destruct i as [|i].
  - rewrite app_nth1 by lia. cbn [nth]. f_equal. lia.
  - rewrite app_nth2 by lia. cbn [nth]. replace (j + S i * length r - length r) with (j + i * length r) by lia. apply IH; auto. lia.
Qed.
Lemma concat_length_rows m (rows : list (list N)) : Forall (fun r => length r = m) rows -> length (concat rows) = length rows * m.
Proof. induction rows as [|r rows IH]; intros F; [reflexivity|]. inversion F; subst. cbn [concat length]. rewrite app_length, IH; auto. Qed.
Lemma elements_target p m L count u target : length target = count -> Forall (fun r => length r = m) target ->
  (elements p m L count u = target <->
   forall i, i < count * m -> (OS2IP (firstn L (skipn (L * i) u)) mod p)%N = nth i (concat target) 0%N).
Proof.
  intros LT FT. split.
  - intros E i Hi. assert (Hm : m <> 0) by (intros ->; lia).
    assert (Ei : i = i mod m + i / m * m) by (pose proof (Nat.div_mod i m Hm); lia).
    assert (Hj : i mod m < m) by now apply Nat.mod_upper_bound.
    assert (Hk : i / m < count) by (apply Nat.div_lt_upper_bound; lia).
    rewrite Ei, nth_concat by (auto; lia). rewrite <- E. unfold elements. rewrite nth_map_seq by exact Hk. now rewrite nth_map_seq by exact Hj.
  - intros H. apply nth_ext with (d := []) (d' := []).
    + unfold elements. now rewrite map_length, seq_length.
    + intros i Hi. unfold elements in Hi. rewrite map_length, seq_length in Hi.
      pose proof (proj1 (Forall_nth _ _) FT i [] ltac:(lia)) as Lr.
      apply nth_ext with (d := 0%N) (d' := 0%N).
      * unfold elements. rewrite nth_map_seq by exact Hi. rewrite map_length, seq_length. now symmetry.
      * intros j Hj. unfold elements in Hj. rewrite nth_map_seq in Hj by exact Hi. rewrite map_length, seq_length in Hj.
        unfold elements. rewrite nth_map_seq by exact Hi. rewrite nth_map_seq by exact Hj.
        rewrite H by nia. apply nth_concat; auto. lia.
Qed.

Lemma unbiased p m L count k target :
  p <> 0%N -> (p * 2 ^ k <= 256 ^ N.of_nat L)%N ->
  length target = count -> Forall (fun row => length row = m /\ Forall (fun r => (r < p)%N) row) target ->
  let q := (256 ^ N.of_nat L / p)%N in
  exists n, has_members (fun u => octet_string (count * m * L) u /\ elements p m L count u = target) n /\
    (2 ^ k <= q)%N /\ (q ^ N.of_nat (count * m) <= n <= (q + 1) ^ N.of_nat (count * m))%N.
Proof.
  intros Hp Hk LT FT q. set (Xs := map (strings p L) (concat target)).
  assert (FR : Forall (fun r => length r = m) target) by (eapply Forall_impl; [|exact FT]; cbn; tauto).
  assert (FC : Forall (fun r => (r < p)%N) (concat target)).
  { clear - FT. induction FT as [|r rows (_ & H) F IH]; [constructor|]. cbn [concat]. apply Forall_app; auto. }
  assert (LX : length Xs = count * m) by (unfold Xs; rewrite map_length, (concat_length_rows m), LT; auto).
  assert (FX : Forall (Forall (octet_string L)) Xs).
  { apply Forall_forall. intros X HX. apply in_map_iff in HX. destruct HX as (r & <- & Hr).
    apply Forall_forall. intros u Hu. apply (strings_in p L Hp r u) in Hu; [tauto|]. now apply (proj1 (Forall_forall _ _) FC). }
  assert (DX : Forall (@NoDup (list N)) Xs).
  { apply Forall_forall. intros X HX. apply in_map_iff in HX. destruct HX as (r & <- & Hr). apply strings_nodup; auto.
    now apply (proj1 (Forall_forall _ _) FC). }
  exists (N.of_nat (length (cart Xs))). split; [|split].
  - exists (cart Xs). split; [now apply (cart_nodup L)|]. split; [|reflexivity]. intros u. rewrite (cart_in L Xs FX), LX.
    rewrite (elements_target p m L count u target LT FR). split; intros ((Lu & Fu) & H); (split; [now split|]); intros i Hi.
    + specialize (H i Hi). unfold Xs in H.
      rewrite (nth_indep _ [] (strings p L 0)) in H by (fold Xs; lia). rewrite map_nth in H.
      apply (strings_in p L Hp) in H; [tauto|]. apply (proj1 (Forall_nth _ _) FC). rewrite (concat_length_rows m), LT; auto.
    + unfold Xs. rewrite (nth_indep _ [] (strings p L 0)) by (fold Xs; lia). rewrite map_nth.
      apply (strings_in p L Hp); [apply (proj1 (Forall_nth _ _) FC); rewrite (concat_length_rows m), LT; auto|].
      split; [|now apply H]. split.
      * rewrite firstn_length, skipn_length, Lu. nia.
      * apply Forall_firstn_, Forall_skipn_. exact Fu.
  - unfold q. apply N.div_le_lower_bound; auto.
  - rewrite <- LX. apply cart_length. apply Forall_forall. intros X HX. apply in_map_iff in HX. destruct HX as (r & <- & Hr).
    rewrite strings_length. unfold hits. fold q. destruct (_ <? _)%N; lia.
Qed.
