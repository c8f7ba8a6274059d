(** The statements of PXmd.v. *)
From Coq Require Import NArith Arith List Bool Lia ZifyBool ZifyNat ZifyN ZArith.
From Verif Require Import SpecStream LStream MPack MAcc SpecOctets LGen SpecWords SpecOctetHash SpecXmd MXmd SpecXmdHist LXmd.
From Verif Require Import LMDStmt SpecMD LMD LMDProps MConstr SpecKeccak MKeccak SpecSponge LSpongeStmt LHashStmt MBlake2b SpecBlake2b LBlake2bStmt.
Import ListNotations.
Ltac Zify.zify_post_hook ::= Z.div_mod_to_equations.

Lemma updates_outputs {A} h (F : list N -> A) left ps rest : forall msg,
  outputs h F left msg (updates ps ++ rest) = outputs h F left (msg ++ pieces_octets h ps) rest.
Proof.
  induction ps as [|[vb xs] ps IH]; intros msg; [now rewrite app_nil_r|].
  cbn [updates map app outputs]. fold (updates ps). rewrite IH. unfold pieces_octets. cbn [flat_map fst snd].
  now rewrite app_assoc.
Qed.
Lemma updates_absorbed h left ps : absorbed h left (updates ps) = pieces_octets h ps.
Proof. unfold absorbed, updates, pieces_octets. rewrite flat_map_concat_map, map_map, <- flat_map_concat_map. reflexivity. Qed.
Lemma absorbed_app h left a b : absorbed h left (a ++ b) = absorbed h left a ++ absorbed h left b.
Proof. unfold absorbed. apply flat_map_app. Qed.

Section S.
Context (C : construction) (inj : injector) (H : list N -> list N) (r b k len : nat) (dst junk : list N).
Notation h := (c_host C).
Context (OH : octet_hash C inj H) (DO : digest_octets H b) (RO : input_block_octets C r)
  (HD : Forall (fits 8) dst) (D16 : 16 <= length dst <= 255) (HJ : block_ok (c_word C) (c_words C) junk)
  (HA : accepted b k len = true).

Lemma updates_ok ps : Forall (piece_ok C) ps -> Forall (xop_ok C len) (updates ps).
Proof. intros F. apply Forall_map. eapply Forall_impl; [|exact F]. now intros [vb xs]. Qed.

Lemma history ops : len mod b = 0 -> 0 < len -> Forall (xop_ok C len) ops ->
  (N.of_nat (8 * (r + length (absorbed h (left_behind dst len) ops))) < 2 ^ 64)%N ->
  exists a, xmd_init C inj junk = Some a /\
    xmd_run C inj b len dst a ops =
    Some (outputs h (fun m => expand_message_xmd H b r m dst len) (left_behind dst len) [] ops).
Proof.
  intros Hm Hp HO HS. destruct DO as (D1 & D2 & D3).
  destruct (init_ok C inj H r OH junk RO HJ) as (a & E & Fa).
  { unfold short. rewrite repeat_length. lia. }
  exists a. split; [exact E|].
  apply (run_from C inj H r b OH (fun o => proj1 (D3 o)) (fun o => proj2 (D3 o)) D1 D2 dst HD D16 k len HA Hm Hp); auto.
  - now rewrite app_nil_r.
  - unfold short. rewrite !app_length, repeat_length. cbn [length]. lia.
Qed.

Lemma once ps junks buf : len mod b = 0 -> 0 < len -> Forall (piece_ok C) ps ->
  (forall i, block_ok (c_word C) (c_words C) (junks i)) -> length buf = len ->
  (N.of_nat (8 * length (msg_prime r (pieces_octets h ps) dst len)) < 2 ^ 64)%N ->
  exists a, xmd_init C inj junk = Some a /\
    xmd_run C inj b len dst a (updates ps ++ [XExtract junks buf]) =
    Some [expand_message_xmd H b r (pieces_octets h ps) dst len].
Proof.
  intros Hm Hp HP HJs LB HS.
  destruct (history (updates ps ++ [XExtract junks buf]) Hm Hp) as (a & E & R).
  - apply Forall_app. split; [now apply updates_ok|]. constructor; [|constructor]. now split.
  - rewrite absorbed_app, updates_absorbed. cbn [absorbed flat_map]. rewrite app_nil_r.
    unfold msg_prime in HS. unfold left_behind. rewrite !app_length, repeat_length in HS. rewrite !app_length. lia.
  - exists a. split; [exact E|]. rewrite R, updates_outputs. reflexivity.
Qed.

Lemma run_updates ps o : forall a, xmd_run C inj b len dst a (updates ps ++ o) =
  bind (hash_pieces C inj a ps) (fun a => xmd_run C inj b len dst a o).
Proof.
  induction ps as [|[vb xs] ps IH]; intros a; [reflexivity|].
  cbn [updates map app xmd_run hash_pieces fst snd]. fold (updates ps). unfold xmd_update.
  destruct (hash_into C inj vb a xs); [apply IH|reflexivity].
Qed.

Lemma overflow ps junks buf : len mod b <> 0 \/ len = 0 -> Forall (piece_ok C) ps ->
  (forall i, block_ok (c_word C) (c_words C) (junks i)) -> length buf = len ->
  (N.of_nat (8 * length (msg_prime r (pieces_octets h ps) dst len)) < 2 ^ 64)%N ->
  exists a, xmd_init C inj junk = Some a /\
    xmd_run C inj b len dst a (updates ps ++ [XExtract junks buf]) = None.
Proof.
  intros Hm HP HJs LB HS. destruct DO as (D1 & D2 & D3).
  unfold msg_prime in HS. rewrite !app_length, repeat_length in HS.
  destruct (init_ok C inj H r OH junk RO HJ) as (a & E & Fa).
  { unfold short. rewrite repeat_length. lia. }
  exists a. split; [exact E|]. rewrite run_updates.
  assert (K : exists a', hash_pieces C inj a ps = Some a' /\ fed C inj a' (repeat 0%N r ++ pieces_octets h ps)).
  { destruct Fa as (j & qs & J1 & J2 & J3 & J4). destruct OH as (_ & _ & _ & _ & O).
    destruct (O j (qs ++ ps)) as (a' & E' & _); auto.
    - apply Forall_app; auto.
    - rewrite pieces_octets_app, J4, app_length, repeat_length. lia.
    - assert (E2 := E'). rewrite hash_pieces_app, J3 in E2. cbn [bind] in E2. exists a'. split; [exact E2|].
      exists j, (qs ++ ps). split; [exact J1|]. split; [apply Forall_app; auto|]. split; [exact E'|].
      now rewrite pieces_octets_app, J4. }
  destruct K as (a' & E' & F'). rewrite E'. cbn [bind xmd_run].
  pose proof (process_ok C inj H OH r b (fun o => proj1 (D3 o)) (fun o => proj2 (D3 o)) D1 D2 junks HJs dst HD D16
    k len buf a' _ F' HA LB) as P.
  replace ((len mod b =? 0) && negb (len =? 0)) with false in P by lia. rewrite P; [reflexivity|].
  unfold short, msg_prime. rewrite !app_length, repeat_length. lia.
Qed.
End S.

Section H.
Context (C : construction) (inj : injector) (H : list N -> list N) (r b k : nat) (p : N) (m L count : nat) (dst junk : list N).
Notation h := (c_host C). Notation len := (count * m * L).
Context (OH : octet_hash C inj H) (DO : digest_octets H b) (RO : input_block_octets C r)
  (HD : Forall (fits 8) dst) (D16 : 16 <= length dst <= 255) (HJ : block_ok (c_word C) (c_words C) junk)
  (HA : accepted b k len = true).
Lemma h2f_history ops : len mod b = 0 -> 0 < len -> Forall (xop_ok C len) ops ->
  (N.of_nat (8 * (r + length (absorbed h (left_behind dst len) ops))) < 2 ^ 64)%N ->
  exists a, xmd_init C inj junk = Some a /\
    h2f_run C inj b p m L count dst a ops =
    Some (outputs h (fun msg => hash_to_field H b r p m L count msg dst) (left_behind dst len) [] ops).
Proof.
  intros Hm Hp HO HS. destruct (history C inj H r b k len dst junk OH DO RO HD D16 HJ HA ops Hm Hp HO HS) as (a & E & R).
  exists a. split; [exact E|]. rewrite h2f_run_is, R. cbn [bind]. f_equal.
  rewrite <- (outputs_map C (fun msg => expand_message_xmd H b r msg dst len) (fields p m L count)). reflexivity.
Qed.
Lemma h2f_once ps junks buf : len mod b = 0 -> 0 < len -> Forall (piece_ok C) ps ->
  (forall i, block_ok (c_word C) (c_words C) (junks i)) -> length buf = len ->
  (N.of_nat (8 * length (msg_prime r (pieces_octets h ps) dst len)) < 2 ^ 64)%N ->
  exists a, xmd_init C inj junk = Some a /\
    h2f_run C inj b p m L count dst a (updates ps ++ [XExtract junks buf]) =
    Some [hash_to_field H b r p m L count (pieces_octets h ps) dst].
Proof.
  intros Hm Hp HP HJs LB HS.
  destruct (once C inj H r b k len dst junk OH DO RO HD D16 HJ HA ps junks buf Hm Hp HP HJs LB HS) as (a & E & R).
  exists a. split; [exact E|]. rewrite h2f_run_is, R. reflexivity.
Qed.
End H.

(** ** Instances *)
Lemma sha3_octet_hash d injb inj C H : sponge_size d -> injector_contract BOLB 64 (keccak_words d) injb ->
  sponge_hash d injb C H -> injector_contract BOBB 64 (keccak_words d) inj -> octet_hash C inj H.
Proof.
  intros Hd Hb HC HI. destruct (both_shape d Hd injb C H HC) as (E1 & E2 & E3 & _).
  unfold octet_hash. rewrite E1, E2, E3, (both_host d injb C H HC). split; [reflexivity|]. split; [lia|]. split; [now left|]. split; [now right|].
  intros junk ps Hj HP HS. apply (sponge_pieces d injb inj junk C H ps); auto.
  eapply Forall_impl; [|exact HP]. unfold piece_ok. now rewrite E2.
Qed.
Lemma blake2b_octet_hash db ic inj : db mod 8 = 0 /\ 0 < db <= 512 -> injector_contract LOBB 64 16 ic ->
  injector_contract LOBB 64 16 inj -> octet_hash (blake2b ic db) inj (BLAKE2b_observed (db / 8)).
Proof.
  intros Hd Hb HI. split; [reflexivity|]. split; [cbn; lia|]. split; [now right|]. split; [now right|].
  intros junk ps Hj HP HS. apply (b_pieces db ic inj junk); auto.
Qed.
Lemma md_octet_hash e w bw lb dw iv comp inj : e = BOBB \/ e = LOBB -> md_params w bw lb -> injector_contract e w bw inj ->
  octet_hash (mdC e w bw lb dw iv comp inj) inj (fun os => md_hash e w bw lb (w * dw) one_marker iv comp (octets_bits os)).
Proof.
  intros He MP HI. split; [apply MP|]. split; [apply MP|]. split; [exact He|]. split; [now right|].
  intros junk ps Hj HP HS.
  refine (gen_pieces (mdC e w bw lb dw iv comp inj) inj (mdC_wf _ _ _ _ _ _ _ _ MP) HI He (or_intror eq_refl) _ _
    (mdC_correct _ _ _ _ _ _ _ _ MP HI) (fun _ => True)
    (fun os => md_hash e w bw lb (w * dw) one_marker iv comp (octets_bits os)) _ _ junk ps Hj HP I HS); auto.
Qed.

Lemma sponge_digest_octets d injb C H : sponge_size d -> sponge_hash d injb C H -> digest_octets H (d / 8).
Proof.
  intros [D1 D2] HC. split; [lia|]. split; [lia|]. intros os.
  assert (L : forall N, length (keccak_sponge (1600 - 2 * d) N d) = 8 * (d / 8)).
  { intros N. rewrite keccak_sponge_length by lia. lia. }
  destruct HC; unfold SHA3_octets, Keccak_octets, SHA3, Keccak, bits_octets_lsb;
    (split; [rewrite words_of_stream_length, L, Nat.mul_comm, Nat.div_mul; lia|apply words_of_stream_fits]).
Qed.
Lemma md_digest_octets e w bw lb dw sw iv comp : md_params w bw lb -> 0 < dw <= sw -> (N.of_nat dw < 2 ^ 50)%N ->
  (forall s x, length s = sw -> length (comp s x) = sw) -> length iv = sw ->
  digest_octets (fun os => md_hash e w bw lb (w * dw) one_marker iv comp (octets_bits os)) (w / 8 * dw).
Proof.
  intros MP Hd Hs Hc Hi. destruct MP as [W8 W _ _ _].
  split; [assert (1 <= w / 8) by lia; nia|]. split; [assert (w / 8 <= 8) by lia; nia|].
  intros os. unfold md_hash. split; [|apply words_of_stream_fits].
  rewrite words_of_stream_length, firstn_length, stream_length.
  assert (L : length (md_chain e w bw comp iv (md_pad e (w * bw) lb one_marker (octets_bits os))) = sw).
  { unfold md_chain. generalize (map (words_of_stream e w) (chunks (w * bw) (md_pad e (w * bw) lb one_marker (octets_bits os)))).
    intros bs. revert iv Hi. induction bs as [|x bs IH]; intros iv Hi; [exact Hi|]. cbn [fold_left]. apply IH. now apply Hc. }
  rewrite L. rewrite Nat.min_l by nia. replace w with (w / 8 * 8) at 1 by lia.
  replace (w / 8 * 8 * dw) with (w / 8 * dw * 8) by lia. now rewrite Nat.div_mul.
Qed.

Lemma more_b_fits H dst b0 : (forall os, Forall (fits 8) (H os)) -> forall n i bi, Forall (fits 8) (concat (more_b H dst b0 n i bi)).
Proof. intros HF. induction n as [|n IH]; intros; cbn [more_b concat]; [constructor|]. apply Forall_app; auto. Qed.
Lemma more_b_len H b dst b0 : (forall os, length (H os) = b) -> forall n i bi, length (concat (more_b H dst b0 n i bi)) = n * b.
Proof. intros HL. induction n as [|n IH]; intros; cbn [more_b concat]; [reflexivity|]. rewrite app_length, HL, IH. lia. Qed.
Lemma expand_shape H b r msg dst len : digest_octets H b -> 0 < len -> len mod b = 0 ->
  length (expand_message_xmd H b r msg dst len) = len /\ Forall (fits 8) (expand_message_xmd H b r msg dst len).
Proof.
  intros (D1 & D2 & D3) Hl Hm. unfold expand_message_xmd. cbn [concat]. split.
  - rewrite firstn_length, app_length, (proj1 (D3 _)), (more_b_len H b).
    + pose proof (Nat.div_mod len b ltac:(lia)) as E. rewrite Hm in E.
      assert (ceil_div len b = len / b).
      { unfold ceil_div. symmetry. apply Nat.div_unique with (r := b - 1); lia. }
      destruct (ceil_div len b) as [|c] eqn:EC; [lia|]. cbn [Nat.sub]. rewrite Nat.sub_0_r. nia.
    + intros. apply D3.
  - apply Forall_firstn', Forall_app. split; [apply D3|]. apply more_b_fits. intros. apply D3.
Qed.

Lemma inside C inj H r b k len dst junk :
  octet_hash C inj H -> digest_octets H b -> input_block_octets C r ->
  Forall (fits 8) dst -> 16 <= length dst <= 255 -> block_ok (c_word C) (c_words C) junk ->
  accepted b k len = true ->
  forall pieces junks buf, len mod b = 0 -> 0 < len -> Forall (piece_ok C) pieces ->
  (forall i, block_ok (c_word C) (c_words C) (junks i)) -> length buf = len ->
  (N.of_nat (8 * length (msg_prime r (pieces_octets (c_host C) pieces) dst len)) < 2 ^ 64)%N ->
  exists a u, xmd_init C inj junk = Some a /\
    xmd_run C inj b len dst a (updates pieces ++ [XExtract junks buf]) = Some [u] /\
    length u = len /\ Forall (fits 8) u.
Proof.
  intros OH DO RO HD D16 HJ HA ps junks buf Hm Hp HP HJs LB HS.
  destruct (once C inj H r b k len dst junk OH DO RO HD D16 HJ HA ps junks buf Hm Hp HP HJs LB HS) as (a & E & R).
  eexists a, _. split; [exact E|]. split; [exact R|]. now apply expand_shape.
Qed.

Lemma two_differ {A} (o : option A) (f : A -> option (list (list (list N)))) :
  match bind o f with Some [[[u]]; [[v]]] => negb (N.eqb u v) | _ => false end = true ->
  exists a u v, o = Some a /\ f a = Some [u; v] /\ u <> v.
Proof.
  destruct o as [a|]; cbn [bind]; [|discriminate].
  destruct (f a) as [l|] eqn:E; [|discriminate].
  destruct l as [|[|[|u [|]] [|]] [|[|[|v [|]] [|]] [|]]]; try discriminate. intros K.
  exists a, [[u]], [[v]]. split; [reflexivity|]. split; [exact E|]. intros Q. injection Q as ->.
  rewrite N.eqb_refl in K. discriminate.
Qed.
Lemma not_repeatable :
  let C := sha3 (inj_run BOLB 64 17) 256 in
  let inj := inj_run BOBB 64 17 in
  let junk := repeat 0%N 17 in
  exists a u v, xmd_init C inj junk = Some a /\
    h2f_run C inj 32 0x73eda753299d7d483339d80809a1d80553bda402fffe5bfeffffffff00000001 1 64 1 (repeat 65%N 16) a
      [XUpdate 8 [97; 98; 99]%N; XExtract (fun _ => junk) (repeat 0%N 64); XExtract (fun _ => junk) (repeat 0%N 64)] =
    Some [u; v] /\ u <> v.
Proof. intros C inj junk. apply two_differ. vm_compute. reflexivity. Qed.

Lemma accepted_iff b k len : 0 < b ->
  accepted b k len = true <-> 2 * k <= 8 * b /\ (N.of_nat len <= 65535)%N /\ len <= 255 * b.
Proof.
  intros Hb. unfold accepted, ell. split.
  - intros HA. destruct (Nat.eqb_spec (len mod b) 0); nia.
  - intros (A & B & D). destruct (Nat.eqb_spec (len mod b) 0); nia.
Qed.
