(** Several accumulators of find_group_hash and hash_to_curve: proofs. *)
From Coq Require Import NArith Arith List Bool Lia ZifyBool ZifyNat ZifyN ZArith.
From Verif Require Import SpecStream MPack MAcc SpecOctets SpecOctetHash SpecXmd MXmd SpecXmdHist LXmd.
From Verif Require Import SpecFgh MFgh LFgh MH2C SpecStore MStore LStore MStoreMore.
From Verif Require LXmdStmt LH2CStmt LFghStmt.
Import ListNotations.
Ltac Zify.zify_post_hook ::= Z.div_mod_to_equations.

Section F.
Context (C : construction) (inj : injector) (H : list N -> list N) (OH : octet_hash C inj H).
Context {P : Type} (decode : list N -> option P) (cofactor_mul : P -> P) (is_zero well_formed : P -> bool) (dst : list N)
  (HD : Forall (fits 8) dst).
Notation value := (fun u : nat * list N => range_octets (c_host C) (fst u) (snd u)).
Definition ends (msg : list N) : outcome P :=
  match first_valid H decode cofactor_mul (dst ++ urs) msg with
  | None => Running
  | Some q => if is_zero q || negb (well_formed q) then Aborted else Returned q
  end.
Lemma process_ends a msg turns : fed C inj a (dst ++ urs ++ msg) -> short ((dst ++ urs ++ msg) ++ [0%N]) -> 256 <= turns ->
  fgh_process C inj decode cofactor_mul is_zero well_formed turns a = ends msg.
Proof.
  intros F S Ht. unfold ends, first_valid, fgh_process.
  assert (E : first_of (candidate H decode (dst ++ urs) msg) 256 0 = first_of (fun i => decode (H ((dst ++ urs ++ msg) ++ [i]))) 256 0).
  { apply first_ext. intros i. unfold candidate. now rewrite <- !app_assoc. }
  rewrite E. destruct (first_of (fun i => decode (H ((dst ++ urs ++ msg) ++ [i]))) 256 0) as [q|] eqn:E1; cbn [option_map].
  - rewrite (loop_found C inj H OH decode a _ F S 256 turns 0%N q E1 Ht ltac:(lia)). cbv zeta.
    destruct (is_zero (cofactor_mul q)); [reflexivity|]. cbn [orb]. now destruct (negb (well_formed (cofactor_mul q))).
  - now rewrite (loop_forever C inj H OH decode a _ F S E1 turns 0%N ltac:(lia)).
Qed.
Lemma fgh_store cs :
  Forall (fun c : call (list N) (nat * list N) nat => match c with
    | Create _ junk => block_ok (c_word C) (c_words C) junk | Update _ u => piece_ok C u
    | Extract _ turns => 256 <= turns | Copy _ _ => True end) cs ->
  (N.of_nat (8 * (length dst + length urs + 1)) < 2 ^ 64)%N ->
  Forall (fun m => (N.of_nat (8 * (length dst + length urs + length m + 1)) < 2 ^ 64)%N) (messages value [] nothing cs) ->
  fgh_calls C inj decode cofactor_mul is_zero well_formed dst nothing cs = reports value [] ends nothing cs.
Proof.
  intros HF H0 HP.
  apply (store_runs _ _ _ value [] ends (fun a m => fed C inj a (dst ++ urs ++ m))
    (fun m => (N.of_nat (8 * (length dst + length urs + length m + 1)) < 2 ^ 64)%N)
    (fun j => block_ok (c_word C) (c_words C) j) (piece_ok C) (fun t => 256 <= t)).
  - intros j Hj. destruct (reach C inj H OH j dst [] Hj HD (Forall_nil _)) as (a & a' & E & E' & F).
    { unfold short. cbn [pieces_octets flat_map map concat]. rewrite !app_length. cbn [length]. revert H0. generalize (2 ^ 64)%N. intros q H0. lia. }
    cbn [hash_pieces] in E'. injection E' as <-. exists a. split; [exact E|exact F].
  - intros s m [vb xs] HR Hu HS. cbn [fst snd] in *.
    destruct (fed_into C inj H OH s _ vb xs HR Hu) as (a & E & F').
    + unfold short. rewrite !app_length in *. revert HS. generalize (2 ^ 64)%N. intros q HS. lia.
    + exists a. split; [exact E|]. rewrite <- !app_assoc in F'. exact F'.
  - intros s m t HR Ht HS. rewrite app_nil_r in *. exists s. split; [|exact HR]. f_equal. f_equal.
    apply process_ends; auto. unfold short. rewrite !app_length. cbn [length]. revert HS. generalize (2 ^ 64)%N. intros q HS. lia.
  - eapply Forall_impl; [|exact HF]. intros [ | | | ]; auto.
  - exact HP.
Qed.
End F.

Section H2c.
Context {F G : Type} (elem : list N -> F) (gadd : G -> G -> G) (gmul : G -> Z -> G) (mtc : F -> G) (h_eff : Z).
Context (C : construction) (inj : injector) (H : list N -> list N) (r b k : nat) (p : N) (m L : nat) (dst : list N).
Notation len := (2 * m * L).
Context (OH : octet_hash C inj H) (DO : digest_octets H b) (RO : input_block_octets C r)
  (HD : Forall (fits 8) dst) (D16 : 16 <= length dst <= 255) (HA : accepted b k len = true)
  (Hm : len mod b = 0) (Hp : 0 < len) (HR : (N.of_nat (8 * r) < 2 ^ 64)%N).
Notation value := (fun u : nat * list N => range_octets (c_host C) (fst u) (snd u)).
Notation okE := (fun e : (nat -> list N) * list N =>
  (forall i, block_ok (c_word C) (c_words C) (fst e i)) /\ length (snd e) = len).
Notation Rel := (fun a msg => fed C inj a (repeat 0%N r ++ msg)).
Notation ep := (ep_map gadd gmul mtc h_eff).
Definition curve_of (msg : list N) : G :=
  let us := hash_to_field H b r p m L 2 msg dst in
  gmul (gadd (mtc (elem (nth 0 us []))) (mtc (elem (nth 1 us [])))) h_eff.

Lemma h2c_extract s msg e : Rel s msg -> okE e ->
  (N.of_nat (8 * (r + length (msg ++ left_behind dst len))) < 2 ^ 64)%N ->
  exists s', option_map (fun ua => (ep_of elem ep (fst ua), snd ua)) (h2f_process C inj b p m L 2 (fst e) dst (snd e) s) =
    Some (curve_of msg, s') /\ Rel s' (msg ++ left_behind dst len).
Proof.
  intros HF HE HS. destruct (h2f_extract C inj H r b k p m L 2 dst OH DO HD D16 HA Hm Hp HR s msg e HF HE HS) as (s' & E & F').
  exists s'. split; [|exact F']. rewrite E. reflexivity.
Qed.
Theorem h2c_store cs :
  Forall (fun c => match c with
    | Create _ junk => block_ok (c_word C) (c_words C) junk | Update _ u => piece_ok C u
    | Extract _ e => okE e | Copy _ _ => True end) cs ->
  Forall (fun msg => (N.of_nat (8 * (r + length msg)) < 2 ^ 64)%N) (messages value (left_behind dst len) nothing cs) ->
  h2c_calls C inj b elem ep p m L 2 dst nothing cs = reports value (left_behind dst len) curve_of nothing cs.
Proof.
  intros HF HP.
  apply (store_runs _ _ _ value (left_behind dst len) curve_of Rel
    (fun msg => (N.of_nat (8 * (r + length msg)) < 2 ^ 64)%N)
    (fun j => block_ok (c_word C) (c_words C) j) (piece_ok C) okE (h2f_init C inj H r dst OH RO D16 HR) (h2f_update C inj H r OH) h2c_extract); auto.
Qed.
Theorem h2c_copies junk ss : block_ok (c_word C) (c_words C) junk ->
  Forall (fun s => match s with Feed u => piece_ok C u | Digest e => okE e end) ss ->
  (N.of_nat (8 * (r + length (fed_values value ss ++ left_behind dst len))) < 2 ^ 64)%N ->
  h2c_calls C inj b elem ep p m L 2 dst nothing (from_copies junk ss) =
  Some (map (fun d => (1, d)) (digests value curve_of [] ss)).
Proof.
  intros Hj HF HS. destruct (h2f_init C inj H r dst OH RO D16 HR junk Hj) as (s0 & E0 & R0).
  apply (copies _ _ _ value curve_of Rel
    (fun msg => (N.of_nat (8 * (r + length (msg ++ left_behind dst len))) < 2 ^ 64)%N) (piece_ok C) okE) with (s0 := s0); auto.
  - intros a c. rewrite !app_length. generalize (2 ^ 64)%N. intros q. lia.
  - intros s msg u H1 H2 H3. apply (h2f_update C inj H r OH); auto. revert H3. rewrite !app_length. generalize (2 ^ 64)%N. intros q. lia.
  - intros s msg e H1 H2 H3. destruct (h2c_extract s msg e H1 H2 H3) as (s' & E & _). eauto.
Qed.
Theorem h2c_history junk ops : block_ok (c_word C) (c_words C) junk -> Forall (xop_ok C len) ops ->
  (N.of_nat (8 * (r + length (absorbed (c_host C) (left_behind dst len) ops))) < 2 ^ 64)%N ->
  exists a, xmd_init C inj junk = Some a /\
    h2c_run C inj b elem ep p m L 2 dst a ops = Some (outputs (c_host C) curve_of (left_behind dst len) [] ops).
Proof.
  intros Hj HO HS.
  destruct (LXmdStmt.h2f_history C inj H r b k p m L 2 dst junk OH DO RO HD D16 Hj HA ops Hm Hp HO HS) as (a & E & R).
  exists a. split; [exact E|]. rewrite LH2CStmt.h2c_run_is, R. cbn [option_map]. f_equal.
  clear. generalize (@nil N) as msg. induction ops as [|[vb xs|js buf] ops IH]; intros msg; cbn [outputs map]; [reflexivity|apply IH|].
  f_equal. apply IH.
Qed.
End H2c.
