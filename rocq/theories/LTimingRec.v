(** What a record of the Keccak assembly's run tells: proofs for C68. *)
From Coq Require Import NArith ZArith Arith List Bool Lia.
From Verif Require Import MAsm MTiming SpecTiming.
Import ListNotations.

Lemma read_app t t' o k : read_in (t ++ t') o k <-> read_in t o k \/ read_in t' o k.
Proof.
  unfold read_in. split.
  - intros (z & n & H & C). apply in_app_or in H. destruct H; [left|right]; eauto.
  - intros [(z & n & H & C)|(z & n & H & C)]; exists z, n; (split; [apply in_or_app|exact C]); auto.
Qed.
Lemma written_app t t' o k : written_in (t ++ t') o k <-> written_in t o k \/ written_in t' o k.
Proof.
  unfold written_in. split.
  - intros (z & n & H & C). apply in_app_or in H. destruct H; [left|right]; eauto.
  - intros [(z & n & H & C)|(z & n & H & C)]; exists z, n; (split; [apply in_or_app|exact C]); auto.
Qed.

Section S.
Context (A : values) (cnt : A -> option N).
Notation machine := (machine A).
Notation step := (step A cnt).
Notation observe := (observe A).

Lemma upd_length {T} (x : T) : forall l i l', upd l i x = Some l' -> length l' = length l.
Proof.
  induction l as [|y l IH]; intros [|i] l' E; cbn [upd] in E; try discriminate; [now injection E as <-|].
  destruct (upd l i x) eqn:E'; [|discriminate]. injection E as <-. cbn. now rewrite (IH _ _ E').
Qed.
Lemma upd_nth {T} (x : T) : forall l i l' j, upd l i x = Some l' -> nth_error l' j = if Nat.eqb j i then Some x else nth_error l j.
Proof.
  induction l as [|y l IH]; intros [|i] l' j E; cbn [upd] in E; try discriminate.
  - injection E as <-. now destruct j.
  - destruct (upd l i x) eqn:E'; [|discriminate]. injection E as <-. destruct j as [|j]; [reflexivity|]. cbn. now apply IH.
Qed.
Lemma upd_some {T U} (x : T) (y : U) : forall l i l' (k : list U), upd l i x = Some l' -> length k = length l -> exists k', upd k i y = Some k'.
Proof.
  induction l as [|a l IH]; intros [|i] l' [|b k] E L; cbn [upd] in *; try discriminate; eauto.
  destruct (upd l i x) eqn:E'; [|discriminate]. destruct (IH i _ k E') as (k' & ->); [cbn in L; lia|eauto].
Qed.

(** ** Cells *)
Lemma cell_obs m b off o k : cell A m b off = Some (o, k) ->
  exists p z, get A m b = Some p /\ v_to_ptr A p = Some (o, z) /\ (z + off = 8 * Z.of_nat k)%Z.
Proof.
  unfold cell. destruct (get A m b) as [p|]; [|discriminate]. destruct (v_to_ptr A p) as [[o' z]|] eqn:E; [|discriminate].
  destruct ((0 <=? z + off)%Z && ((z + off) mod 8 =? 0)%Z) eqn:C; [|discriminate]. intros H. injection H as <- <-.
  apply andb_true_iff in C. destruct C as [C1 C2]. apply Z.leb_le in C1. apply Z.eqb_eq in C2.
  exists p, z. split; [reflexivity|]. split; [exact E|].
  rewrite Z2Nat.id by (apply Z.div_pos; lia). apply Z_div_exact_full_2; lia.
Qed.
Lemma load_word m b off x : load A m b off = Some x -> exists o k, cell A m b off = Some (o, k) /\ word_at m o k = Some x.
Proof. unfold load. destruct (cell A m b off) as [[o k]|]; [|discriminate]. intros H. exists o, k. split; [reflexivity|exact H]. Qed.
Lemma cell_alike m n b off : regs A n = regs A m -> cell A n b off = cell A m b off.
Proof. intros E. unfold cell, get. now rewrite E. Qed.
Lemma load_alike m n b off : regs A n = regs A m ->
  (forall o k, cell A m b off = Some (o, k) -> word_at n o k = word_at m o k) -> load A n b off = load A m b off.
Proof. intros E H. unfold load. rewrite (cell_alike m n b off E). destruct (cell A m b off) as [[o k]|]; [|reflexivity]. exact (H o k eq_refl). Qed.

Lemma list_ext {T} : forall l l' : list T, (forall j, nth_error l j = nth_error l' j) -> l = l'.
Proof.
  induction l as [|x l IH]; intros [|y l'] H; [reflexivity|now specialize (H 0)|now specialize (H 0)|].
  f_equal; [specialize (H 0); now injection H|]. apply IH. intros j. exact (H (Datatypes.S j)).
Qed.
(** What a store does. *)
Lemma store_word m b off x m' : store A m b off x = Some m' -> exists o k, cell A m b off = Some (o, k) /\
  regs A m' = regs A m /\ vregs A m' = vregs A m /\ map (@length A) (objects A m') = map (@length A) (objects A m) /\
  forall o' k', word_at m' o' k' = if Nat.eqb o' o && Nat.eqb k' k then Some x else word_at m o' k'.
Proof.
  unfold store. destruct (cell A m b off) as [[o k]|]; [|discriminate].
  destruct (nth_error (objects A m) o) as [l|] eqn:El; [|discriminate]. destruct (upd l k x) as [l'|] eqn:E1; [|discriminate].
  destruct (upd (objects A m) o l') as [os|] eqn:E2; [|discriminate]. intros H. injection H as <-. cbn [regs vregs objects].
  exists o, k. repeat split.
  - apply list_ext. intros j. rewrite !nth_error_map, (upd_nth _ _ _ _ j E2). destruct (Nat.eqb_spec j o) as [->|D]; [|reflexivity].
    rewrite El. cbn. now rewrite (upd_length _ _ _ _ E1).
  - intros o' k'. unfold word_at. cbn [objects]. rewrite (upd_nth _ _ _ _ o' E2). destruct (Nat.eqb_spec o' o) as [->|D]; [|reflexivity].
    rewrite El, (upd_nth _ _ _ _ k' E1). reflexivity.
Qed.

Lemma obs_operand i m e w b off n : observe i m = Some e -> operand i = Some (w, b, off, n) ->
  forall off' o k, cell A m b off' = Some (o, k) -> (off <= off' < off + 8 * Z.of_nat n)%Z ->
  if w then written_in e o k else read_in e o k.
Proof.
  intros E Ei off' o k C L. apply cell_obs in C. destruct C as (p & z & Hp & Hz & Ek).
  unfold MTiming.observe in E. rewrite Ei, Hp, Hz in E. injection E as <-.
  destruct w; exists (z + off)%Z, n; (split; [right; left; reflexivity|unfold covers; lia]).
Qed.

(** ** Agreement on a set of words *)
Definition agree (S : nat -> nat -> Prop) (m n : machine) : Prop :=
  alike m n /\ forall o k, S o k -> word_at n o k = word_at m o k.
Lemma get_agree S m n r : agree S m n -> get A n r = get A m r.
Proof. intros ((E & _) & _). unfold get. now rewrite E. Qed.
Lemma getv_agree S m n r : agree S m n -> getv A n r = getv A m r.
Proof. intros ((_ & E & _) & _). unfold getv. now rewrite E. Qed.
Lemma load_agree (S : nat -> nat -> Prop) m n b off : agree S m n -> (forall o k, cell A m b off = Some (o, k) -> S o k) -> load A n b off = load A m b off.
Proof. intros ((E & _) & H) C. apply load_alike; [exact E|]. intros o k Hc. apply H. now apply C. Qed.
Lemma set_agree S m n d x m' : agree S m n -> set A m d x = Some m' -> exists n', set A n d x = Some n' /\ agree S m' n'.
Proof.
  intros ((E1 & E2 & E3) & H) E. unfold set in *. rewrite E1. destruct (upd (regs A m) d x) as [rs|]; [|discriminate].
  injection E as <-. eexists. split; [reflexivity|]. split; [split; [|split]|]; auto.
Qed.
Lemma setv_agree S m n d x m' : agree S m n -> setv A m d x = Some m' -> exists n', setv A n d x = Some n' /\ agree S m' n'.
Proof.
  intros ((E1 & E2 & E3) & H) E. unfold setv in *. rewrite E2. destruct (upd (vregs A m) d x) as [rs|]; [|discriminate].
  injection E as <-. eexists. split; [reflexivity|]. split; [split; [|split]|]; auto.
Qed.
Lemma store_agree S m n b off x m' : agree S m n -> store A m b off x = Some m' ->
  exists n', store A n b off x = Some n' /\ agree (fun o k => S o k \/ cell A m b off = Some (o, k)) m' n'.
Proof.
  intros ((E1 & E2 & E3) & H) E.
  assert (X : exists n', store A n b off x = Some n').
  { unfold store in *. rewrite (cell_alike m n b off E1). destruct (cell A m b off) as [[o k]|]; [|discriminate].
    destruct (nth_error (objects A m) o) as [l|] eqn:El; [|discriminate]. destruct (upd l k x) as [l'|] eqn:U1; [|discriminate].
    destruct (upd (objects A m) o l') as [os|] eqn:U2; [|discriminate].
    assert (L : length (objects A n) = length (objects A m)) by (rewrite <- (map_length (@length A)), E3; apply map_length).
    pose proof (f_equal (fun l => nth_error l o) E3) as K. cbv beta in K. rewrite !nth_error_map, El in K.
    destruct (nth_error (objects A n) o) as [ln|]; [|discriminate]. cbn in K. injection K as K.
    destruct (upd_some x x l k l' ln U1 K) as (ln' & ->).
    destruct (upd_some l' ln' _ o os (objects A n) U2 L) as (? & ->). eauto. }
  destruct X as (n' & X). exists n'. split; [exact X|].
  apply store_word in E. destruct E as (o & k & C & R1 & R2 & R3 & R4).
  apply store_word in X. destruct X as (o' & k' & C' & Q1 & Q2 & Q3 & Q4). rewrite (cell_alike m n b off E1), C in C'. injection C' as <- <-.
  split; [split; [|split]; congruence|]. intros o' k' K. rewrite R4, Q4.
  destruct (Nat.eqb_spec o' o) as [->|D1]; [destruct (Nat.eqb_spec k' k) as [->|D2]|]; cbn [andb]; [reflexivity| |];
    (destruct K as [K|K]; [now apply H|congruence]).
Qed.
Lemma agree_weak (S S' : nat -> nat -> Prop) m n : (forall o k, S' o k -> S o k) -> agree S m n -> agree S' m n.
Proof. intros K [H1 H2]. split; [exact H1|]. intros o k X. auto. Qed.
Lemma observe_agree S m n i : agree S m n -> observe i n = observe i m.
Proof. intros H. unfold MTiming.observe. destruct (operand i) as [[[[w b] off] k]|]; [|reflexivity]. now rewrite (get_agree S m n b H). Qed.

Lemma loadv_agree (S : nat -> nat -> Prop) m n b off : agree S m n ->
  (forall j o k, In j [0; 8; 16; 24]%Z -> cell A m b (off + j) = Some (o, k) -> S o k) -> loadv A n b off = loadv A m b off.
Proof.
  intros H C. unfold loadv.
  rewrite (load_agree S m n b off H), (load_agree S m n b (off + 8) H), (load_agree S m n b (off + 16) H), (load_agree S m n b (off + 24) H); [reflexivity| | | |].
  - intros o k. apply (C 24%Z). cbn; tauto.
  - intros o k. apply (C 16%Z). cbn; tauto.
  - intros o k. apply (C 8%Z). cbn; tauto.
  - intros o k. rewrite <- (Z.add_0_r off). apply (C 0%Z). cbn; tauto.
Qed.
Lemma masked_agree (S : nat -> nat -> Prop) m n b : agree S m n -> forall x d off mask,
  (forall j o k, j < length x -> cell A m b (off + 8 * Z.of_nat j) = Some (o, k) -> S o k) ->
  masked_xor A n b off mask x d = masked_xor A m b off mask x d.
Proof.
  intros H. induction x as [|a x IH]; intros [|c d] off mask C; cbn [masked_xor]; try reflexivity.
  rewrite (load_agree S m n b off H), (IH d (off + 8)%Z).
  - reflexivity.
  - intros j o k L E. apply (C (Datatypes.S j)); [cbn; lia|]. rewrite <- E. f_equal. lia.
  - intros o k E. apply (C 0); [cbn; lia|]. rewrite <- E. f_equal. lia.
Qed.

(** ** One instruction *)
Lemma no_write i m e : observe i m = Some e -> match operand i with Some (true, _, _, _) => False | _ => True end ->
  forall o k, ~ written_in e o k.
Proof.
  intros O N o k (z & j & H & _). unfold MTiming.observe in O. destruct (operand i) as [[[[w b] off] c]|].
  - destruct w; [contradiction|]. destruct (get A m b) as [p|]; [|discriminate]. destruct (v_to_ptr A p) as [[o' z']|]; [|discriminate].
    injection O as <-. destruct H as [H|[H|[]]]; discriminate H.
  - injection O as <-. destruct H as [H|[]]. discriminate H.
Qed.
Lemma written_cell i m e b off c : observe i m = Some e -> operand i = Some (true, b, off, c) -> forall o0 k0, cell A m b off = Some (o0, k0) ->
  forall o k, written_in e o k -> o = o0 /\ k0 <= k < k0 + c.
Proof.
  intros O Hi o0 k0 C o k (z & j & Hin & L). apply cell_obs in C. destruct C as (p & z' & Hp & Hz & Ek).
  unfold MTiming.observe in O. rewrite Hi, Hp, Hz in O. injection O as <-. destruct Hin as [Hin|[Hin|[]]]; [discriminate Hin|].
  injection Hin as <- <- <-. unfold covers in L. lia.
Qed.
Ltac binds H := repeat match type of H with
  | bind ?o _ = Some _ => let E := fresh "E" in destruct o eqn:E; cbn [bind] in H |- *; [|discriminate H]
  | (if ?c then _ else _) = Some _ => destruct c; try discriminate H
  | (match ?c with _ => _ end) = Some _ => destruct c; try discriminate H
  end.
Lemma step_reads S m n i m' e : zmm m -> agree S m n -> step i m = Some m' -> observe i m = Some e ->
  (forall o k, read_in e o k -> S o k) ->
  exists n', step i n = Some n' /\ agree (fun o k => S o k \/ written_in e o k) m' n'.
Proof.
  intros Z H E O R.
  assert (OR : forall b off c off' o k, operand i = Some (false, b, off, c) -> cell A m b off' = Some (o, k) ->
     (off <= off' < off + 8 * Z.of_nat c)%Z -> S o k).
  { intros b off c off' o k Hi Hc L. apply R. exact (obs_operand i m e false b off c O Hi off' o k Hc L). }
  assert (OW : forall b off c off' o k, operand i = Some (true, b, off, c) -> cell A m b off' = Some (o, k) ->
     (off <= off' < off + 8 * Z.of_nat c)%Z -> written_in e o k).
  { intros b off c off' o k Hi Hc L. exact (obs_operand i m e true b off c O Hi off' o k Hc L). }
  assert (NW : match operand i with Some (true, _, _, _) => False | _ => True end ->
     forall o', (exists n', o' = Some n' /\ agree S m' n') -> exists n', o' = Some n' /\ agree (fun o k => S o k \/ written_in e o k) m' n').
  { intros N o' (n' & E' & A'). exists n'. split; [exact E'|]. apply (agree_weak S); [|exact A'].
    intros o k [K|K]; [exact K|]. exfalso. exact (no_write i m e O N o k K). }
  assert (LA : forall b off c, operand i = Some (false, b, off, c) -> 1 <= c -> load A n b off = load A m b off).
  { intros b off c Hi L. apply (load_agree S m n b off H). intros o k Hc. apply (OR b off c off o k Hi Hc). lia. }
  assert (LV : forall b off, operand i = Some (false, b, off, 4) -> loadv A n b off = loadv A m b off).
  { intros b off Hi. apply (loadv_agree S m n b off H). intros j o k Hj Hc. apply (OR b off 4 (off + j)%Z o k Hi Hc). cbn in Hj. lia. }
  assert (WC : forall c b off o0 k0 (T : nat -> nat -> Prop), operand i = Some (true, b, off, c) -> cell A m b off = Some (o0, k0) ->
     (forall j, j < c -> T o0 (k0 + j)) -> forall o k, S o k \/ written_in e o k -> S o k \/ T o k).
  { intros c b off o0 k0 T Hi Hc HT o k [K|K]; [now left|]. right.
    destruct (written_cell i m e b off c O Hi o0 k0 Hc o k K) as (-> & L).
    replace k with (k0 + (k - k0)) by lia. apply HT. lia. }
  destruct i; cbn [operand] in OR, OW, NW, LA, LV, WC; cbn [MAsm.step] in *;
    rewrite ?(fun r => get_agree S m n r H), ?(fun r => getv_agree S m n r H).
  all: try (apply (NW I); rewrite ?(LA _ _ _ eq_refl (le_n 1)), ?(LV _ _ eq_refl); binds E;
       first [exact (set_agree S m n _ _ m' H E) | exact (setv_agree S m n _ _ m' H E)]).
  (* x_mov_s, a_str *)
  1, 2: binds E; destruct (store_agree S m n _ _ _ m' H E) as (n' & X & Y); exists n'; (split; [exact X|]);
    apply store_word in E; destruct E as (o0 & k0 & C & _); apply (fun K => agree_weak _ _ _ _ K Y);
    apply (WC 1 b off o0 k0 _ eq_refl C); intros [|j] L; [rewrite Nat.add_0_r; exact C|lia].
  - (* a_ldp *)
    apply (NW I). rewrite (LA _ _ _ eq_refl) by lia.
    rewrite (load_agree S m n b 8 H) by (intros o k Hc; apply (OR b 0%Z 2 8%Z o k eq_refl Hc); lia).
    binds E. destruct (set_agree S m n _ _ _ H E2) as (n1 & -> & H1). cbn [bind]. exact (set_agree S _ n1 _ _ m' H1 E).
  - (* a_stp *)
    binds E. destruct (store_agree S m n _ _ _ _ H E2) as (n1 & -> & H1). cbn [bind].
    destruct (store_agree _ _ n1 _ _ _ m' H1 E) as (n' & X & Y). exists n'. split; [exact X|].
    apply store_word in E2. destruct E2 as (o0 & k0 & C & R1 & _).
    apply store_word in E. destruct E as (o1 & k1 & C1 & _). rewrite (cell_alike _ _ b 8 R1) in Y, C1.
    apply (fun K => agree_weak _ _ _ _ K Y). intros o k K.
    destruct (WC 2 b 0%Z o0 k0 (fun o k => cell A m b 0 = Some (o, k) \/ cell A m b 8 = Some (o, k)) eq_refl C) with (o := o) (k := k) as [K'|[K'|K']];
      [|exact K|auto|auto|auto].
    intros j L. destruct j as [|[|j]]; [left; rewrite Nat.add_0_r; exact C| |lia]. right.
    pose proof (cell_obs _ _ _ _ _ C) as (p & z & P1 & P2 & P3). pose proof (cell_obs _ _ _ _ _ C1) as (p' & z' & Q1 & Q2 & Q3).
    rewrite P1 in Q1. injection Q1 as <-. rewrite P2 in Q2. injection Q2 as <- <-. rewrite C1. f_equal. f_equal. lia.
  - (* z_pxorq_l *)
    apply (NW I). binds E. rewrite (masked_agree S m n b H).
    + rewrite E4. cbn [bind]. exact (setv_agree S m n _ _ m' H E).
    + intros j o k' L Hc. apply (OR b off 8 _ o k' eq_refl Hc).
      assert (length l <= 8); [|lia]. unfold getv in E0. apply nth_error_In in E0. unfold zmm in Z. rewrite Forall_forall in Z. now apply Z.
Qed.

Lemma step_writes m i m' e : step i m = Some m' -> observe i m = Some e ->
  forall o k, written_in e o k \/ word_at m' o k = word_at m o k.
Proof.
  intros E O.
  assert (OW : forall b off c off' o k, operand i = Some (true, b, off, c) -> cell A m b off' = Some (o, k) ->
     (off <= off' < off + 8 * Z.of_nat c)%Z -> written_in e o k).
  { intros b off c off' o k Hi Hc L. exact (obs_operand i m e true b off c O Hi off' o k Hc L). }
  assert (K : objects A m' = objects A m -> forall o k, written_in e o k \/ word_at m' o k = word_at m o k).
  { intros Eo o k. right. unfold word_at. now rewrite Eo. }
  assert (Hs : forall m d x m', set A m d x = Some m' -> objects A m' = objects A m).
  { clear. intros m d x m' E. unfold set in E. destruct (upd (regs A m) d x); [|discriminate]. now injection E as <-. }
  assert (Hv : forall m d x m', setv A m d x = Some m' -> objects A m' = objects A m).
  { clear. intros m d x m' E. unfold setv in E. destruct (upd (vregs A m) d x); [|discriminate]. now injection E as <-. }
  destruct i; cbn [operand] in OW; cbn [MAsm.step] in E.
  all: try (apply K; binds E; first [exact (Hs _ _ _ _ E) | exact (Hv _ _ _ _ E)]).
  1, 2: binds E; intros o k'; apply store_word in E; destruct E as (o0 & k0 & C & _ & _ & _ & Q); rewrite Q;
    destruct (Nat.eqb o o0 && Nat.eqb k' k0) eqn:X; [left|now right];
    apply andb_true_iff in X; destruct X as [X1 X2]; apply Nat.eqb_eq in X1, X2; subst o k';
    apply (OW b off 1 off _ _ eq_refl C); lia.
  - binds E. apply K. rewrite (Hs _ _ _ _ E). exact (Hs _ _ _ _ E2).
  - binds E. intros o k. apply store_word in E. destruct E as (o1 & k1 & C1 & _ & _ & _ & Q1).
    apply store_word in E2. destruct E2 as (o0 & k0 & C0 & R0 & _ & _ & Q0). rewrite (cell_alike _ _ b 8 R0) in C1. rewrite Q1, Q0.
    destruct (Nat.eqb o o1 && Nat.eqb k k1) eqn:X.
    + left. apply andb_true_iff in X. destruct X as [X1 X2]. apply Nat.eqb_eq in X1, X2. subst. apply (OW b 0%Z 2 8%Z _ _ eq_refl C1). lia.
    + destruct (Nat.eqb o o0 && Nat.eqb k k0) eqn:Y; [left|now right].
      apply andb_true_iff in Y. destruct Y as [X1 X2]. apply Nat.eqb_eq in X1, X2. subst. apply (OW b 0%Z 2 0%Z _ _ eq_refl C0). lia.
Qed.

(** ** Vector registers stay within 512 bits *)
Lemma lanes1_length f : forall x r, lanes1 A f x = Some r -> length r = length x.
Proof.
  induction x as [|a x IH]; intros r E; cbn [lanes1] in E; [now injection E as <-|].
  binds E. injection E as <-. cbn. now rewrite (IH _ eq_refl).
Qed.
Lemma lanes2_length {T} f : forall (x : list T) y r, lanes2 A f x y = Some r -> length r = length y.
Proof.
  induction x as [|a x IH]; intros [|b y] r E; cbn [lanes2] in E; try discriminate; [now injection E as <-|].
  binds E. injection E as <-. cbn. now rewrite (IH _ _ E1).
Qed.
Lemma pick_length x : forall is r, pick A x is = Some r -> length r = length is.
Proof.
  unfold pick. induction is as [|i is IH]; intros r E; [now injection E as <-|].
  binds E. injection E as <-. cbn. now rewrite (IH _ eq_refl).
Qed.
Lemma counts_length : forall x r, counts A cnt x = Some r -> length r = length x.
Proof.
  induction x as [|a x IH]; intros r E; cbn [counts] in E; [now injection E as <-|].
  binds E. injection E as <-. cbn. now rewrite (IH _ eq_refl).
Qed.
Lemma masked_length m b : forall x d off mask r, masked_xor A m b off mask x d = Some r -> length r = length d.
Proof.
  induction x as [|a x IH]; intros [|c d] off mask r E; cbn [masked_xor] in E; try discriminate; [now injection E as <-|].
  binds E; injection E as <-; cbn; f_equal; eapply IH; eassumption.
Qed.
Lemma blend_length : forall x y mask r, blend A mask x y = Some r -> length r = length y.
Proof.
  induction x as [|a x IH]; intros [|c d] mask r E; cbn [blend] in E; try discriminate; [now injection E as <-|].
  binds E. injection E as <-. cbn. f_equal. eapply IH; eassumption.
Qed.
Lemma loadv_length m b off r : loadv A m b off = Some r -> length r = 4.
Proof. unfold loadv. intros E. binds E. now injection E as <-. Qed.
Lemma getv_zmm m d x : zmm m -> getv A m d = Some x -> length x <= 8.
Proof. intros Z E. unfold getv in E. apply nth_error_In in E. unfold zmm in Z. rewrite Forall_forall in Z. now apply Z. Qed.
Lemma setv_zmm m d x m' : zmm m -> length x <= 8 -> setv A m d x = Some m' -> zmm m'.
Proof.
  intros Z L E. unfold setv in E. destruct (upd (vregs A m) d x) as [vs|] eqn:U; [|discriminate]. injection E as <-. unfold zmm in *. cbn [vregs].
  apply Forall_forall. intros v Hv. apply In_nth_error in Hv. destruct Hv as (j & Hj). rewrite (upd_nth _ _ _ _ j U) in Hj.
  destruct (Nat.eqb j d); [injection Hj as <-; exact L|]. apply nth_error_In in Hj. rewrite Forall_forall in Z. now apply Z.
Qed.
Lemma set_zmm m d x m' : zmm m -> set A m d x = Some m' -> zmm m'.
Proof. intros Z E. unfold set in E. destruct (upd (regs A m) d x) as [vs|]; [|discriminate]. now injection E as <-. Qed.
Lemma store_zmm m b off x m' : zmm m -> store A m b off x = Some m' -> zmm m'.
Proof. intros Z E. apply store_word in E. destruct E as (o & k & _ & _ & E & _). unfold zmm. now rewrite E. Qed.
Lemma step_zmm m i m' : zmm m -> step i m = Some m' -> zmm m'.
Proof.
  intros Z E. destruct i; cbn [MAsm.step] in E; binds E;
  repeat match goal with
  | H : getv A m _ = Some _ |- _ => apply (getv_zmm m _ _ Z) in H
  | H : lanes1 A _ _ = Some _ |- _ => apply lanes1_length in H
  | H : lanes2 A _ _ _ = Some _ |- _ => apply lanes2_length in H
  | H : counts A cnt _ = Some _ |- _ => apply counts_length in H
  | H : masked_xor A _ _ _ _ _ _ = Some _ |- _ => apply masked_length in H
  | H : blend A _ _ _ = Some _ |- _ => apply blend_length in H
  | H : pick A _ _ = Some _ |- _ => apply pick_length in H; try rewrite map_length in H
  | H : loadv A _ _ _ = Some _ |- _ => apply loadv_length in H
  end;
  first [exact (set_zmm _ _ _ _ Z E) | exact (store_zmm _ _ _ _ _ Z E)
    | exact (set_zmm _ _ _ _ (set_zmm _ _ _ _ Z E2) E) | exact (store_zmm _ _ _ _ _ (store_zmm _ _ _ _ _ Z E2) E)
    | refine (setv_zmm _ _ _ _ Z _ E); cbn [length] in *; lia].
Qed.

(** ** Runs *)
Notation traced_run := (traced_run A cnt).
Notation traced_loop := (traced_loop A cnt).
Notation traced_both := (traced_both A cnt).
Lemma obs_executed i m e : observe i m = Some e -> executed e = [i] /\ branches e = [].
Proof.
  intros O. unfold MTiming.observe in O. destruct (operand i) as [[[[w b] off] c]|]; [|injection O as <-; now split].
  destruct (get A m b) as [p|]; [|discriminate]. destruct (v_to_ptr A p) as [[o z]|]; [|discriminate]. injection O as <-. destruct w; now split.
Qed.
Definition keeps (t : list event) (m m' : machine) : Prop := forall o k, written_in t o k \/ word_at m' o k = word_at m o k.
Lemma keeps_app t t' m m1 m2 : keeps t m m1 -> keeps t' m1 m2 -> keeps (t ++ t') m m2.
Proof.
  intros K1 K2 o k. destruct (K1 o k) as [W|E1]; [left; apply written_app; now left|].
  destruct (K2 o k) as [W|E2]; [left; apply written_app; now right|]. right. congruence.
Qed.
Lemma executed_app t t' : executed (t ++ t') = executed t ++ executed t'.
Proof. apply flat_map_app. Qed.
Lemma branches_app t t' : branches (t ++ t') = branches t ++ branches t'.
Proof. apply flat_map_app. Qed.
Lemma run_records p : forall m t m', traced_run p m = Some (t, m') -> executed t = p /\ branches t = [] /\ keeps t m m'.
Proof.
  induction p as [|i p IH]; intros m t m' E; cbn [MTiming.traced_run] in E.
  - injection E as <- <-. repeat split. intros o k. now right.
  - destruct (observe i m) as [e|] eqn:O; [|discriminate]. destruct (step i m) as [m1|] eqn:S1; [|discriminate].
    destruct (traced_run p m1) as [[t1 m2]|] eqn:E1; [|discriminate]. injection E as <- <-.
    destruct (IH m1 t1 m2 E1) as (X & B & W). destruct (obs_executed i m e O) as [X1 B1].
    rewrite executed_app, branches_app, X, B, X1, B1. split; [reflexivity|]. split; [reflexivity|].
    apply keeps_app with m1; [|exact W]. exact (step_writes m i m1 e S1 O).
Qed.
Lemma loop_records c q : forall fuel m t m', traced_loop fuel c q m = Some (t, m') ->
  (exists j, executed t = concat (repeat q (Datatypes.S j)) /\ branches t = repeat true j ++ [false]) /\ keeps t m m'.
Proof.
  induction fuel as [|fuel IH]; intros m t m' E; cbn [MTiming.traced_loop] in E; [discriminate|].
  destruct (traced_run q m) as [[t1 m1]|] eqn:E1; [|discriminate]. destruct (run_records q m t1 m1 E1) as (X & B & K).
  destruct (get A m1 c) as [x|]; [|discriminate]. destruct (v_zero A x) as [[|]|]; [| |discriminate].
  - injection E as <- <-. split.
    + exists 0. rewrite executed_app, branches_app, X, B. split; [reflexivity|reflexivity].
    + apply keeps_app with m1; [exact K|]. intros o k. now right.
  - destruct (traced_loop fuel c q m1) as [[t2 m2]|] eqn:E2; [|discriminate]. injection E as <- <-.
    destruct (IH m1 t2 m2 E2) as ((j & X2 & B2) & K2). split.
    + exists (Datatypes.S j). change (Branch true :: t2) with ([Branch true] ++ t2).
      rewrite !executed_app, !branches_app, X, B, X2, B2. split; reflexivity.
    + apply keeps_app with m1; [exact K|]. intros o k. destruct (K2 o k) as [W|W]; [|now right].
      left. apply (written_app [Branch true]). now right.
Qed.
Theorem both_records p fuel c q m t m' : traced_both p fuel c q m = Some (t, m') ->
  (exists j, executed t = p ++ concat (repeat q (Datatypes.S j)) /\ branches t = repeat true j ++ [false]) /\
  (forall o k, written_in t o k \/ word_at m' o k = word_at m o k).
Proof.
  unfold MTiming.traced_both. intros E. destruct (traced_run p m) as [[t1 m1]|] eqn:E1; [|discriminate].
  destruct (traced_loop fuel c q m1) as [[t2 m2]|] eqn:E2; [|discriminate]. injection E as <- <-.
  destruct (run_records p m t1 m1 E1) as (X & B & K). destruct (loop_records c q fuel m1 t2 m2 E2) as ((j & X2 & B2) & K2). split.
  - exists j. rewrite executed_app, branches_app, X, B, X2, B2. split; reflexivity.
  - now apply keeps_app with m1.
Qed.

(** ** What was not read does not matter *)
Definition same_after (t : list event) (S : nat -> nat -> Prop) (m' n' : machine) := agree (fun o k => S o k \/ written_in t o k) m' n'.
Lemma run_reads p : forall S m n t m', zmm m -> agree S m n -> traced_run p m = Some (t, m') -> (forall o k, read_in t o k -> S o k) ->
  zmm m' /\ exists n', traced_run p n = Some (t, n') /\ same_after t S m' n'.
Proof.
  induction p as [|i p IH]; intros S m n t m' Z H E R; cbn [MTiming.traced_run] in *.
  - injection E as <- <-. split; [exact Z|]. exists n. split; [reflexivity|]. apply (agree_weak S); [|exact H]. intros o k [K|(z & j & [] & _)]. exact K.
  - rewrite (observe_agree S m n i H). destruct (observe i m) as [e|] eqn:O; [|discriminate]. destruct (step i m) as [m1|] eqn:S1; [|discriminate].
    destruct (traced_run p m1) as [[t1 m2]|] eqn:E1; [|discriminate]. injection E as <- <-.
    destruct (step_reads S m n i m1 e Z H S1 O) as (n1 & -> & H1); [intros o k K; apply R, read_app; now left|].
    destruct (IH _ m1 n1 t1 m2 (step_zmm _ _ _ Z S1) H1 E1) as (Z' & n2 & -> & H2); [intros o k K; left; apply R, read_app; now right|].
    split; [exact Z'|]. exists n2. split; [reflexivity|]. apply (fun K => agree_weak _ _ _ _ K H2).
    intros o k [K|K]; [left; now left|]. apply written_app in K. destruct K; [left; now right|now right].
Qed.
Lemma loop_reads c q : forall fuel S m n t m', zmm m -> agree S m n -> traced_loop fuel c q m = Some (t, m') -> (forall o k, read_in t o k -> S o k) ->
  zmm m' /\ exists n', traced_loop fuel c q n = Some (t, n') /\ same_after t S m' n'.
Proof.
  induction fuel as [|fuel IH]; intros S m n t m' Z H E R; cbn [MTiming.traced_loop] in *; [discriminate|].
  destruct (traced_run q m) as [[t1 m1]|] eqn:E1; [|discriminate].
  assert (R1 : forall o k, read_in t1 o k -> S o k).
  { intros o k K. apply R. destruct (get A m1 c) as [x|]; [|discriminate]. destruct (v_zero A x) as [[|]|]; [| |discriminate].
    - injection E as <- _. apply read_app. now left.
    - destruct (traced_loop fuel c q m1) as [[t2 m2]|]; [|discriminate]. injection E as <- _. apply read_app. now left. }
  destruct (run_reads q S m n t1 m1 Z H E1 R1) as (Z1 & n1 & -> & H1). rewrite (get_agree _ m1 n1 c H1).
  destruct (get A m1 c) as [x|]; [|discriminate]. destruct (v_zero A x) as [[|]|]; [| |discriminate].
  - injection E as <- <-. split; [exact Z1|]. exists n1. split; [reflexivity|]. apply (fun K => agree_weak _ _ _ _ K H1).
    intros o k [K|K]; [now left|]. apply written_app in K. destruct K as [K|(z & j & [K|[]] & _)]; [now right|discriminate K].
  - destruct (traced_loop fuel c q m1) as [[t2 m2]|] eqn:E2; [|discriminate]. injection E as <- <-.
    destruct (IH _ m1 n1 t2 m2 Z1 H1 E2) as (Z2 & n2 & -> & H2).
    { intros o k K. left. apply R, read_app. right. apply (read_app [Branch true]). now right. }
    split; [exact Z2|]. exists n2. split; [reflexivity|]. apply (fun K => agree_weak _ _ _ _ K H2).
    intros o k [K|K]; [left; now left|]. apply written_app in K. destruct K as [K|K]; [left; now right|].
    apply (written_app [Branch true]) in K. destruct K as [(z & j & [K|[]] & _)|K]; [discriminate K|now right].
Qed.
Theorem both_reads p fuel c q m n t m' : zmm m -> alike m n -> traced_both p fuel c q m = Some (t, m') ->
  (forall o k, read_in t o k -> word_at n o k = word_at m o k) ->
  exists n', traced_both p fuel c q n = Some (t, n') /\ alike m' n' /\
  forall o k, read_in t o k \/ written_in t o k -> word_at n' o k = word_at m' o k.
Proof.
  unfold MTiming.traced_both. intros Z H E R. destruct (traced_run p m) as [[t1 m1]|] eqn:E1; [|discriminate].
  destruct (traced_loop fuel c q m1) as [[t2 m2]|] eqn:E2; [|discriminate]. injection E as <- <-.
  destruct (run_reads p (read_in (t1 ++ t2)) m n t1 m1 Z (conj H R) E1) as (Z1 & n1 & -> & H1); [intros o k K; apply read_app; now left|].
  destruct (loop_reads c q fuel _ m1 n1 t2 m2 Z1 H1 E2) as (_ & n2 & -> & [H2 H3]); [intros o k K; left; apply read_app; now right|].
  exists n2. split; [reflexivity|]. split; [exact H2|]. intros o k [K|K]; apply H3; [left; now left|].
  apply written_app in K. destruct K; [left; now right|now right].
Qed.
Theorem run_records_reads p m n t m' : zmm m -> alike m n -> traced_run p m = Some (t, m') ->
  (forall o k, read_in t o k -> word_at n o k = word_at m o k) ->
  exists n', traced_run p n = Some (t, n') /\ alike m' n' /\
  forall o k, read_in t o k \/ written_in t o k -> word_at n' o k = word_at m' o k.
Proof.
  intros Z H E R. destruct (run_reads p (read_in t) m n t m' Z (conj H R) E (fun o k K => K)) as (_ & n' & E' & [H1 H2]). eauto.
Qed.
End S.
