(** Several accumulators: every program reports the digests of the messages. *)
From Coq Require Import NArith Arith List Bool Lia ZifyBool ZifyNat ZifyN ZArith.
From Verif Require Import SpecStream MPack MAcc SpecOctets SpecOctetHash SpecXmd MXmd SpecXmdHist LXmd.
From Verif Require Import SpecPedersen MPedersen SpecStore MStore.
From Verif Require LPedersenStmt SpecCrc MCrc LCrc.
Import ListNotations.
Ltac Zify.zify_post_hook ::= Z.div_mod_to_equations.

Section Gen.
Context {St J U E D : Type} (init : J -> option St) (update : St -> U -> option St)
        (extract : St -> E -> option (D * St)).
Context (value : U -> list N) (left : list N) (H : list N -> D).
Context (R : St -> list N -> Prop) (P : list N -> Prop) (okJ : J -> Prop) (okU : U -> Prop) (okE : E -> Prop).
Context (Hinit : forall j, okJ j -> exists s, init j = Some s /\ R s []).
Context (Hupd : forall s m u, R s m -> okU u -> P (m ++ value u) -> exists s', update s u = Some s' /\ R s' (m ++ value u)).
Context (Hext : forall s m e, R s m -> okE e -> P (m ++ left) -> exists s', extract s e = Some (H m, s') /\ R s' (m ++ left)).

Definition call_fits (c : call J U E) : Prop :=
  match c with Create _ j => okJ j | Update _ u => okU u | Extract _ e => okE e | Copy _ _ => True end.
Definition same (slots : nat -> option St) (ms : nat -> option (list N)) : Prop :=
  forall i, match slots i, ms i with
            | Some s, Some m => R s m
            | None, None => True
            | _, _ => False
            end.

Lemma same_put slots ms i s m : same slots ms -> R s m -> same (put i s slots) (put i m ms).
Proof. intros K HR k. unfold put. destruct (k =? i); [exact HR|apply K]. Qed.

Lemma store_run cs : forall slots ms, same slots ms -> Forall call_fits cs -> Forall P (messages value left ms cs) ->
  run_store init update extract slots cs = reports value left H ms cs.
Proof.
  induction cs as [|c cs IH]; intros slots ms K HF HP; [reflexivity|].
  inversion HF as [|? ? Hc HF']; subst. destruct c as [i j|i u|i e|i k]; cbn [run_store reports messages call_fits] in *.
  - destruct (Hinit j Hc) as (s & -> & HR). apply IH; auto. now apply same_put.
  - pose proof (K i) as Ki. destruct (slots i) as [s|], (ms i) as [m|]; try contradiction; [|reflexivity].
    inversion HP as [|? ? Hp HP']; subst.
    destruct (Hupd s m u Ki Hc Hp) as (s' & -> & HR). apply IH; auto. now apply same_put.
  - pose proof (K i) as Ki. destruct (slots i) as [s|], (ms i) as [m|]; try contradiction; [|reflexivity].
    inversion HP as [|? ? Hp HP']; subst.
    destruct (Hext s m e Ki Hc Hp) as (s' & -> & HR). f_equal. apply IH; auto. now apply same_put.
  - pose proof (K i) as Ki. destruct (slots i) as [s|], (ms i) as [m|]; try contradiction; [|reflexivity].
    apply IH; auto. now apply same_put.
Qed.

Lemma store_runs cs : Forall call_fits cs -> Forall P (messages value left nothing cs) ->
  run_store init update extract nothing cs = reports value left H nothing cs.
Proof. apply store_run. intros i. exact I. Qed.
End Gen.

Section Copies.
Context {A St J U E D : Type} (init : J -> option St) (update : St -> U -> option St)
        (extract : St -> E -> option (D * St)).
Context (value : U -> list A) (H : list A -> D).
Context (R : St -> list A -> Prop) (P : list A -> Prop) (okU : U -> Prop) (okE : E -> Prop).
Context (Pre : forall a b, P (a ++ b) -> P a).
Context (Hupd : forall s m u, R s m -> okU u -> P (m ++ value u) -> exists s', update s u = Some s' /\ R s' (m ++ value u)).
Context (Hext : forall s m e, R s m -> okE e -> P m -> exists s', extract s e = Some (H m, s')).

Definition step_fits (s : step U E) : Prop := match s with Feed u => okU u | Digest e => okE e end.

Lemma copies_from ss : forall slots s m, slots 0 = Some s -> R s m -> Forall step_fits ss ->
  P (m ++ fed_values value ss) ->
  run_store init update extract slots
    (flat_map (fun s => match s with Feed u => [Update 0 u] | Digest e => [Copy 0 1; Extract 1 e] end) ss) =
  Some (map (fun d => (1, d)) (digests value H m ss)).
Proof.
  induction ss as [|[u|e] ss IH]; intros slots s m E0 HR HF HP; [reflexivity| |];
    inversion HF as [|? ? Hc HF']; subst; cbn [flat_map app run_store digests fed_values map] in *; rewrite E0.
  - rewrite app_assoc in HP. destruct (Hupd s m u HR Hc (Pre _ _ HP)) as (s' & -> & HR').
    apply (IH _ s'); auto.
  - unfold put at 1. cbn [Nat.eqb]. destruct (Hext s m e HR Hc (Pre _ _ HP)) as (s' & ->).
    rewrite (IH _ s m); auto.
Qed.

Lemma copies j s0 ss : init j = Some s0 -> R s0 [] -> Forall step_fits ss -> P (fed_values value ss) ->
  run_store init update extract nothing (from_copies j ss) = Some (map (fun d => (1, d)) (digests value H [] ss)).
Proof. intros E0 HR HF HP. cbn [from_copies run_store]. rewrite E0. apply (copies_from ss _ s0); auto. Qed.
End Copies.

(** ** Block hashes *)
Section Block.
Context (C : construction) (inj : injector) (H : list N -> list N) (OH : octet_hash C inj H).
Notation value := (fun u : nat * list N => range_octets (c_host C) (fst u) (snd u)).
Notation fits_ := (fun c : call (list N) (nat * list N) unit =>
  match c with Create _ junk => block_ok (c_word C) (c_words C) junk | Update _ u => piece_ok C u | _ => True end).

Lemma block_store cs : Forall fits_ cs ->
  Forall (fun m => (N.of_nat (8 * length m) < 2 ^ 64)%N) (messages value [] nothing cs) ->
  block_calls C inj nothing cs = reports value [] H nothing cs.
Proof.
  intros HF HP.
  apply (store_runs _ _ _ value [] H (fed C inj) short (fun j => block_ok (c_word C) (c_words C) j) (piece_ok C) (fun _ => True)).
  - intros j Hj. eexists. split; [reflexivity|]. now apply fed_init.
  - intros s m [vb xs] HR Hu HS. apply (fed_into C inj H OH); auto.
  - intros s m [] HR _ HS. rewrite app_nil_r in *. rewrite (fed_result C inj H OH s m HR HS). cbn [option_map]. eauto.
  - eapply Forall_impl; [|exact HF]. intros [ | | | ]; auto.
  - exact HP.
Qed.
End Block.

(** ** hash_to_field *)
Section H2f.
Context (C : construction) (inj : injector) (H : list N -> list N) (r b k : nat) (p : N) (m L count : nat) (dst : list N).
Notation len := (count * m * L).
Context (OH : octet_hash C inj H) (DO : digest_octets H b) (RO : input_block_octets C r)
  (HD : Forall (fits 8) dst) (D16 : 16 <= length dst <= 255) (HA : accepted b k len = true)
  (Hm : len mod b = 0) (Hp : 0 < len) (HR : (N.of_nat (8 * r) < 2 ^ 64)%N).
Notation value := (fun u : nat * list N => range_octets (c_host C) (fst u) (snd u)).
Notation okE := (fun e : (nat -> list N) * list N =>
  (forall i, block_ok (c_word C) (c_words C) (fst e i)) /\ length (snd e) = len).
Notation Rel := (fun a msg => fed C inj a (repeat 0%N r ++ msg)).

Lemma h2f_init j : block_ok (c_word C) (c_words C) j -> exists s, xmd_init C inj j = Some s /\ Rel s [].
Proof.
  intros Hj. destruct (init_ok C inj H r OH j RO Hj) as (a & E & F).
  - unfold short. now rewrite repeat_length.
  - exists a. now rewrite app_nil_r.
Qed.
Lemma h2f_update s msg u : Rel s msg -> piece_ok C u -> (N.of_nat (8 * (r + length (msg ++ value u))) < 2 ^ 64)%N ->
  exists s', xmd_update C inj (fst u) s (snd u) = Some s' /\ Rel s' (msg ++ value u).
Proof.
  intros HF Hu HS. destruct u as [vb xs]. destruct (fed_into C inj H OH s _ vb xs HF Hu) as (a & E & F').
  - unfold short. rewrite <- app_assoc, app_length, repeat_length. exact HS.
  - exists a. split; [exact E|]. rewrite <- app_assoc in F'. exact F'.
Qed.
Lemma h2f_extract s msg e : Rel s msg -> okE e ->
  (N.of_nat (8 * (r + length (msg ++ left_behind dst len))) < 2 ^ 64)%N ->
  exists s', h2f_process C inj b p m L count (fst e) dst (snd e) s =
    Some (hash_to_field H b r p m L count msg dst, s') /\ Rel s' (msg ++ left_behind dst len).
Proof.
  intros HF [HJ LB] HS. destruct DO as (D1 & D2 & D3).
  pose proof (process_ok C inj H OH r b (fun o => proj1 (D3 o)) (fun o => proj2 (D3 o)) D1 D2 (fst e) HJ dst HD D16
    k len (snd e) s msg HF HA LB) as K.
  replace ((len mod b =? 0) && negb (len =? 0))%bool with true in K.
  2:{ rewrite Hm. destruct (Nat.eqb_spec len 0) as [Z|Z]; [lia|reflexivity]. }
  destruct K as (a' & E & F').
  { unfold short, msg_prime. unfold left_behind in HS. rewrite !app_length in *. rewrite repeat_length. lia. }
  exists a'. split; [|exact F']. rewrite h2f_process_is, E. reflexivity.
Qed.

Lemma h2f_store cs :
  Forall (fun c => match c with
    | Create _ junk => block_ok (c_word C) (c_words C) junk | Update _ u => piece_ok C u
    | Extract _ e => okE e | Copy _ _ => True end) cs ->
  Forall (fun msg => (N.of_nat (8 * (r + length msg)) < 2 ^ 64)%N) (messages value (left_behind dst len) nothing cs) ->
  h2f_calls C inj b p m L count dst nothing cs =
  reports value (left_behind dst len) (fun msg => hash_to_field H b r p m L count msg dst) nothing cs.
Proof.
  intros HF HP.
  apply (store_runs _ _ _ value (left_behind dst len) _ Rel
    (fun msg => (N.of_nat (8 * (r + length msg)) < 2 ^ 64)%N)
    (fun j => block_ok (c_word C) (c_words C) j) (piece_ok C) okE h2f_init h2f_update h2f_extract); auto.
Qed.

Lemma h2f_copies junk ss : block_ok (c_word C) (c_words C) junk ->
  Forall (fun s => match s with Feed u => piece_ok C u | Digest e => okE e end) ss ->
  (N.of_nat (8 * (r + length (fed_values value ss ++ left_behind dst len))) < 2 ^ 64)%N ->
  h2f_calls C inj b p m L count dst nothing (from_copies junk ss) =
  Some (map (fun d => (1, d)) (digests value (fun msg => hash_to_field H b r p m L count msg dst) [] ss)).
Proof.
  intros Hj HF HS. destruct (h2f_init junk Hj) as (s0 & E0 & R0).
  apply (copies _ _ _ value (fun msg => hash_to_field H b r p m L count msg dst) Rel
    (fun msg => (N.of_nat (8 * (r + length (msg ++ left_behind dst len))) < 2 ^ 64)%N) (piece_ok C) okE) with (s0 := s0); auto.
  - intros a c. rewrite !app_length. lia.
  - intros s msg u H1 H2 H3. apply h2f_update; auto. revert H3. rewrite !app_length. lia.
  - intros s msg e H1 H2 H3. destruct (h2f_extract s msg e H1 H2 H3) as (s' & E & _). eauto.
Qed.
End H2f.

(** ** Pedersen *)
Section Ped.
Context (G : Type) (zero : G) (add : G -> G -> G) (mul : Z -> G -> G) (base : N -> G) (p : Z) (width c : nat).
Context (GL : group_laws zero add) (Hp : (0 < p)%Z)
  (Hmul : forall i z, mul (z mod p)%Z (base i) = mul z (base i))
  (Hc : 2 <= c) (Hw : (16 ^ (Z.of_nat c - 1) < 2 ^ Z.of_nat width)%Z).
Notation upd := (update_bits add mul base p width (N.of_nat c)).
Notation P := (fun M : list bool => (N.of_nat (length (pad3 M)) < 2 ^ 64)%N /\
  (N.of_nat (length (pad3 M)) <= N.of_nat (3 * c) * 2 ^ 32)%N).

Lemma upd_app x y : forall a, upd a (x ++ y) = match upd a x with Some a' => upd a' y | None => None end.
Proof. induction x as [|b x IH]; intros a; [reflexivity|]. cbn [app update_bits]. destruct (update_bit _ _ _ _ _ _ a b); [apply IH|reflexivity]. Qed.

Lemma pad3_length M : length (pad3 M) = Nat.max 3 (3 * ((length M + 2) / 3)).
Proof. unfold pad3. rewrite app_length, repeat_length. destruct M as [|x M]; [reflexivity|]. cbn [length]. generalize (length M). intros n. lia. Qed.
Lemma pad3_prefix a b : length (pad3 a) <= length (pad3 (a ++ b)).
Proof. rewrite !pad3_length, app_length. generalize (length a) (length b). intros x y. lia. Qed.

Lemma ped_once M : P M -> exists a a', upd (p_init zero base) M = Some a /\
  p_process add mul base p width (N.of_nat c) a = Some (pedersen_to_point zero add mul (fun i => base (N.of_nat i)) c M, a').
Proof.
  intros [H1 H2].
  pose proof (@LPedersenStmt.once G zero add mul base p width c [M] GL Hp Hmul Hc Hw) as K.
  cbn [concat] in K. rewrite app_nil_r in K. specialize (K H1 H2). cbn [map app p_run] in K.
  destruct (upd (p_init zero base) M) as [a|]; [|discriminate K].
  destruct (p_process _ _ _ _ _ _ a) as [[g a']|] eqn:EP; [|discriminate K].
  exists a, a'. split; [reflexivity|]. rewrite EP. injection K as K. now rewrite K.
Qed.

Lemma ped_copies (ss : list (step (list bool) unit)) : P (fed_values (fun bs => bs) ss) ->
  pedersen_calls zero add mul base p width (N.of_nat c) nothing (from_copies tt ss) =
  Some (map (fun d => (1, d))
    (digests (fun bs => bs) (pedersen_to_point zero add mul (fun i => base (N.of_nat i)) c) [] ss)).
Proof.
  intros HP.
  apply (copies _ _ _ (fun bs => bs) (pedersen_to_point zero add mul (fun i => base (N.of_nat i)) c)
    (fun a M => upd (p_init zero base) M = Some a) P (fun _ => True) (fun _ => True)) with (s0 := p_init zero base); auto.
  - intros a b [H1 H2]. pose proof (pad3_prefix a b) as K. split.
    + apply N.le_lt_trans with (N.of_nat (length (pad3 (a ++ b)))); [lia|exact H1].
    + apply N.le_trans with (N.of_nat (length (pad3 (a ++ b)))); [lia|exact H2].
  - intros s M u HR _ HS. destruct (ped_once _ HS) as (a & _ & E & _). exists a. split; [|exact E].
    rewrite upd_app, HR in E. exact E.
  - intros s M e HR _ HS. destruct (ped_once _ HS) as (a & a' & E & Q). exists a'. congruence.
  - apply Forall_forall. intros [u|e] _; exact I.
Qed.
End Ped.

(** Tiger is one of the hashes. *)
From Verif Require MTiger LTigerStmt LTiger SpecTiger.
Lemma tiger_octet_hash k p inj C : MTiger.tiger (64 * (3 + k)) (3 + p) inj = Some C -> injector_contract LOBB 64 8 inj ->
  octet_hash C inj (fun os => SpecTiger.TIGER (3 + p) os ++ repeat 0%N (8 * k)).
Proof.
  intros HC HI. assert (EC : C = LTiger.tg k p inj) by (rewrite LTiger.tiger_is in HC; congruence).
  assert (E1 : c_word C = 64) by now rewrite EC.
  assert (E2 : c_words C = 8) by now rewrite EC.
  assert (E3 : c_host C = host_order) by now rewrite EC.
  assert (E4 : c_endian C = LOBB) by now rewrite EC.
  unfold octet_hash. rewrite E1, E2, E3, E4. clear E1 E2 E3 E4.
  split; [reflexivity|]. split; [lia|]. split; [now right|]. split; [now right|].
  intros junk ps Hj HF HS. apply (LTigerStmt.tiger_pieces k p inj junk C HC HI Hj); auto.
  eapply Forall_impl; [|exact HF]. intros q. unfold piece_ok.
  assert (E1 : c_word C = 64) by now rewrite EC. now rewrite E1.
Qed.

Lemma program_example (H : list N -> list N) (j : list N) :
  let value := fun u : nat * list N => range_octets host_order (fst u) (snd u) in
  let cs := [Create 0 j; Update 0 (8, [1; 2]%N); Copy 0 1; Update 1 (16, [0x0403]%N); Extract 0 tt; Update 0 (8, [9]%N);
             Extract 1 tt; Extract 0 tt] in
  reports value [] H nothing cs = Some [(0, H [1; 2]%N); (1, H [1; 2; 3; 4]%N); (0, H [1; 2; 9]%N)] /\
  Forall (fun m => (N.of_nat (8 * length m) < 2 ^ 64)%N) (messages value [] nothing cs).
Proof. cbv zeta. split; [reflexivity|]. cbn. repeat (apply Forall_cons; [reflexivity|]). constructor. Qed.

(** ** CRCs *)
Lemma crc_store cc P cs : SpecCrc.crc_ok P -> LCrc.computes cc P ->
  Forall (fun c : call unit (MCrc.iterator * list N) unit => match c with Update _ u => Forall (fits 8) (snd u) | _ => True end) cs ->
  crc_calls cc (SpecCrc.W P) nothing cs = reports (fun u => snd u) [] (SpecCrc.CRC_octets P) nothing cs.
Proof.
  intros HP HC HF.
  apply (store_runs _ _ _ (fun u : MCrc.iterator * list N => snd u) [] (SpecCrc.CRC_octets P)
    (fun s m => Forall (fits 8) m /\ s = fold_left (MCrc.cc_byte cc) m (MCrc.crc_init cc)) (fun _ => True) (fun _ => True)
    (fun u => Forall (fits 8) (snd u)) (fun _ => True)).
  - intros j _. eexists. split; [reflexivity|]. split; [constructor|reflexivity].
  - intros s m [it xs] [Fm ->] Fx _. cbn [fst snd] in *. eexists. split; [apply (LCrc.stream_fold cc P HC); exact Fx|].
    split; [now apply Forall_app|]. now rewrite fold_left_app.
  - intros s m [] [Fm ->] _ _. eexists. split; [|split; [rewrite app_nil_r; exact Fm|rewrite app_nil_r; reflexivity]].
    f_equal. f_equal. unfold MCrc.crc_result, MCrc.crc_init. exact (LCrc.digest_octets cc P HP HC m Fm).
  - eapply Forall_impl; [|exact HF]. intros [ | | | ]; cbn; auto.
  - apply Forall_forall. auto.
Qed.
