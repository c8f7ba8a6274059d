(** Machines of either byte order: proofs for C72. *)
From Coq Require Import NArith Arith List Bool Lia ZifyBool ZifyNat ZifyN ZArith.
From Verif Require Import SpecStream SpecWords LStream MPack MAcc LMDProps LMDStmt LGen SpecOctets SpecHost.
Import ListNotations.
Ltac Zify.zify_post_hook ::= Z.div_mod_to_equations.

Section H.
Context (C : construction) (inj : injector) (h1 h2 : endian).
Notation C1 := (on_host h1 C).
Notation C2 := (on_host h2 C).
Definition cast (a : acc C1) : acc C2 := @Mk_acc C2 (filled a) (total a) (cache a) (cst a).
Lemma cast_flush a : flush C2 (cast a) = cast (flush C1 a).
Proof. destruct a as [fl t c s]. destruct fl; reflexivity. Qed.
Lemma cast_append a src n : append_bits C2 inj (cast a) src n = option_map cast (append_bits C1 inj a src n).
Proof.
  unfold append_bits. cbv zeta. change (cached_bits C2 (cast a)) with (cached_bits C1 a).
  change (cache (cast a)) with (cache a). change (total (cast a)) with (total a). change (filled (cast a)) with (filled a).
  change (cst (cast a)) with (cst a : c_state C2).
  change (block_bits C2) with (block_bits C1). change (c_word C2) with (c_word C1). change (c_words C2) with (c_words C1).
  change (c_proc C2) with (c_proc C1).
  destruct (inject inj _ _ src _ (cache a) _ 0); [|reflexivity].
  destruct (_ =? block_bits C1); [|reflexivity]. destruct (_ <? n); [|reflexivity].
  destruct (inject inj _ _ src _ l _ _); reflexivity.
Qed.
Lemma cast_feed a f : acc_feed C2 inj (cast a) f = option_map cast (acc_feed C1 inj a f).
Proof.
  destruct f as [v n|v n]; cbn [acc_feed].
  - unfold process_block_value. cbv zeta. rewrite cast_flush.
    change (cached_bits C2 (cast (flush C1 a))) with (cached_bits C1 (flush C1 a)).
    change (block_bits C2) with (block_bits C1). change (c_words C2) with (c_words C1).
    change (words_for C2) with (words_for C1).
    destruct (negb _); [apply cast_append|]. destruct (_ =? block_bits C1); [reflexivity|].
    destruct (_ <=? _); reflexivity.
  - unfold process_word_value. cbv zeta. rewrite cast_flush.
    change (cached_bits C2 (cast (flush C1 a))) with (cached_bits C1 (flush C1 a)).
    change (c_word C2) with (c_word C1).
    destruct (negb _); [apply cast_append|]. reflexivity.
Qed.

Section W.
Context (vb : nat) (f : N -> N).
Context (F0 : f 0%N = 0%N) (Fs : forall xs, stream h1 vb xs = stream h2 vb (map f xs)).
Definition castp (p : bsp C1) : bsp C2 := Mk_bsp C2 (cast (b_acc _ p)) (map f (b_cache _ p)) (b_seen _ p).
Lemma cast_block p n : bsp_process_block C2 inj vb (castp p) n = option_map cast (bsp_process_block C1 inj vb p n).
Proof.
  unfold bsp_process_block. cbn [b_acc b_cache castp].
  change (c_endian C2) with (c_endian C1). change (c_word C2) with (c_word C1).
  replace (pack_to (c_host C2) (c_endian C1) vb (c_word C1) (map f (b_cache _ p)))
    with (pack_to (c_host C1) (c_endian C1) vb (c_word C1) (b_cache _ p)); [apply cast_feed|].
  unfold pack_to, pack. now rewrite <- Fs.
Qed.
Lemma cast_one p x : bsp_update_one C2 inj vb (castp p) (f x) = option_map castp (bsp_update_one C1 inj vb p x).
Proof.
  unfold bsp_update_one. cbv zeta. change (block_values C2 vb) with (block_values C1 vb).
  cbn [b_seen b_cache b_acc castp]. destruct (_ <? _); [|reflexivity].
  rewrite firstn_map, skipn_map. rewrite <- (map_cons f), <- map_app.
  destruct (S _ =? _); [|reflexivity].
  pose proof (cast_block (Mk_bsp C1 (b_acc C1 p) (firstn (b_seen C1 p) (b_cache C1 p) ++ x :: skipn (S (b_seen C1 p)) (b_cache C1 p))
     (S (b_seen C1 p))) (block_bits C1)) as K.
  unfold castp in K at 1. cbn [b_acc b_cache b_seen] in K. change (block_bits C2) with (block_bits C1). rewrite K.
  destruct (bsp_process_block C1 inj vb _ (block_bits C1)); reflexivity.
Qed.
Lemma cast_n xs : forall p, bsp_update_n C2 inj vb (castp p) (map f xs) = option_map castp (bsp_update_n C1 inj vb p xs).
Proof.
  induction xs as [|x xs IH]; intros p; cbn [bsp_update_n map]; [reflexivity|].
  rewrite cast_one. destruct (bsp_update_one C1 inj vb p x); cbn [option_map]; [apply IH|reflexivity].
Qed.
Lemma cast_into a xs : hash_into C2 inj vb (cast a) (map f xs) = option_map cast (hash_into C1 inj vb a xs).
Proof.
  unfold hash_into. replace (bsp_init C2 vb (cast a)) with (castp (bsp_init C1 vb a)).
  2:{ unfold castp, bsp_init. cbn [b_acc b_cache b_seen]. f_equal. change (block_values C2 vb) with (block_values C1 vb). induction (block_values C1 vb) as [|k IH]; cbn [repeat map]; [reflexivity|]. now rewrite IH, F0. }
  rewrite cast_n. destruct (bsp_update_n C1 inj vb _ xs) as [p|]; cbn [option_map]; [|reflexivity].
  unfold bsp_finish. change (b_seen C2 (castp p)) with (b_seen C1 p).
  destruct (0 <? b_seen C1 p); [apply cast_block|reflexivity].
Qed.
End W.

Lemma run_cast (tr : op -> op) (g : nat -> N -> N) (ok : op -> Prop) :
  tr OpExtract = OpExtract -> (forall vb xs, tr (OpHash vb xs) = OpHash vb (map (g vb) xs)) ->
  (forall vb xs, ok (OpHash vb xs) -> g vb 0%N = 0%N /\ forall ys, stream h1 vb ys = stream h2 vb (map (g vb) ys)) ->
  forall ops a, Forall ok ops -> run_ops C2 inj (cast a) (map tr ops) = run_ops C1 inj a ops.
Proof.
  intros T1 T2 Hok. induction ops as [|o ops IH]; intros a F; [reflexivity|].
  inversion F as [|? ? F1 F2 E]; clear F.
  destruct o as [vb xs|]; cbn [map]; rewrite ?T1, ?T2; cbn [run_ops].
  - destruct (Hok vb xs F1) as [H0 Hs]. rewrite (cast_into vb (g vb) H0 Hs).
    destruct (hash_into C1 inj vb a xs); cbn [option_map]; [now apply IH|reflexivity].
  - change (acc_result C2 (cast a)) with (acc_result C1 a). rewrite IH by exact F2. reflexivity.
Qed.
End H.

Lemma map_id_op ops : map (fun o : op => o) ops = ops.
Proof. apply map_id. Qed.

Lemma octets_portable C inj junk ops : Forall octet_op ops -> digests_on BOBB C inj junk ops = digests_on LOBB C inj junk ops.
Proof.
  intros F. unfold digests_on. symmetry. rewrite <- (map_id_op ops) at 1.
  apply (run_cast C inj BOBB LOBB (fun o => o) (fun _ x => x) octet_op) with (a := acc_init (on_host BOBB C) junk).
  - reflexivity.
  - intros. now rewrite map_id.
  - intros vb xs E. cbn in E. subst vb. split; [reflexivity|]. intros ys. rewrite map_id. symmetry. apply octet_stream_LOBB.
  - exact F.
Qed.

Lemma octets_le_value os : Forall (fits 8) os -> octets_le (length os) (le_value os) = os.
Proof.
  induction 1 as [|o os Ho F IH]; [reflexivity|]. cbn [length octets_le le_value].
  unfold fits in Ho. change (2 ^ N.of_nat 8)%N with 256%N in Ho.
  replace ((o + 256 * le_value os) mod 256)%N with o by lia.
  replace ((o + 256 * le_value os) / 256)%N with (le_value os) by lia. now rewrite IH.
Qed.
Lemma swap_le n x : octets_le n (swap_octets n x) = rev (octets_le n x).
Proof.
  unfold swap_octets, be_value. pose proof (octets_le_value (rev (octets_le n x))) as K.
  rewrite rev_length, octets_le_length in K. apply K. apply Forall_rev, octets_le_fits.
Qed.
Lemma swap_0 n : swap_octets n 0 = 0%N.
Proof.
  unfold swap_octets, be_value. assert (E : octets_le n 0 = repeat 0%N n) by (induction n; cbn; [reflexivity|now rewrite <- IHn]).
  rewrite E. assert (R : forall l, Forall (eq 0%N) l -> le_value l = 0%N).
  { induction 1; cbn [le_value]; [reflexivity|lia]. }
  apply R, Forall_rev. clear. induction n; cbn; constructor; auto.
Qed.
Lemma swap_stream vb xs : vb mod 8 = 0 -> stream BOBB vb xs = stream LOBB vb (map (swap_octets (vb / 8)) xs).
Proof.
  intros H. rewrite !range_stream by auto. f_equal. unfold range_octets.
  induction xs as [|x xs IH]; [reflexivity|]. cbn [map flat_map]. rewrite <- IH. f_equal. symmetry. apply swap_le.
Qed.
Lemma wide_swapped C inj junk ops : Forall whole_octet_op ops ->
  digests_on BOBB C inj junk ops = digests_on LOBB C inj junk (map swap_op ops).
Proof.
  intros F. unfold digests_on. symmetry.
  apply (run_cast C inj BOBB LOBB swap_op (fun vb => swap_octets (vb / 8)) whole_octet_op) with (a := acc_init (on_host BOBB C) junk).
  - reflexivity.
  - reflexivity.
  - intros vb xs E. cbn in E. split; [apply swap_0|]. intros ys. now apply swap_stream.
  - exact F.
Qed.
Lemma on_host_self C : on_host (c_host C) C = C.
Proof. now destruct C. Qed.

From Verif Require Import SpecSha.
From Verif Require MSha LSha MMisc MMisc.
Lemma once_digests C inj vb junk xs d : c_host C = LOBB -> hash_once C inj vb junk xs = Some d ->
  digests_on LOBB C inj junk [OpHash vb xs; OpExtract] = Some [d].
Proof.
  intros Hc H. unfold digests_on. rewrite <- Hc, on_host_self. unfold hash_once in H. cbn [run_ops].
  destruct (hash_into C inj vb _ xs); [|discriminate]. now rewrite H.
Qed.
Lemma sha256_one cipher inj junk x : LSha.computes cipher 32 8 sha256_steps ->
  injector_contract BOBB 32 16 inj -> block_ok 32 16 junk -> fits 32 x ->
  digests_on LOBB (MSha.sha2_256 cipher inj) inj junk [OpHash 32 [x]; OpExtract] = Some [SHA256 (octets_le 4 x)].
Proof.
  intros HC HI HJ Hx. apply once_digests; [reflexivity|].
  pose proof (md_wide BOBB 32 16 64 8 MSha.sha2_256_iv (MMisc.davies_meyer cipher (MMisc.state_adder 32)) inj junk 4 [x]) as K.
  cbv zeta in K. destruct K as [K _]; try assumption.
  - constructor; cbn; lia.
  - lia.
  - reflexivity.
  - constructor; [assumption|constructor].
  - reflexivity.
  - refine (eq_trans K _). cbn [flat_map host_order octets_in_order]. rewrite app_nil_r.
    apply LSha.sha2_256_once; auto; [apply octets_le_fits|rewrite octets_le_length; reflexivity].
Qed.
Lemma sha256_differs cipher inj junk : LSha.computes cipher 32 8 sha256_steps ->
  injector_contract BOBB 32 16 inj -> block_ok 32 16 junk ->
  digests_on LOBB (MSha.sha2_256 cipher inj) inj junk [OpHash 32 [1%N]; OpExtract] = Some [SHA256 [1; 0; 0; 0]%N] /\
  digests_on BOBB (MSha.sha2_256 cipher inj) inj junk [OpHash 32 [1%N]; OpExtract] = Some [SHA256 [0; 0; 0; 1]%N] /\
  SHA256 [1; 0; 0; 0]%N <> SHA256 [0; 0; 0; 1]%N.
Proof.
  intros HC HI HJ. split; [|split].
  - apply (sha256_one cipher inj junk 1 HC HI HJ). reflexivity.
  - rewrite wide_swapped by (repeat constructor).
    change (map swap_op [OpHash 32 [1%N]; OpExtract]) with [OpHash 32 [16777216%N]; OpExtract].
    apply (sha256_one cipher inj junk 16777216 HC HI HJ). reflexivity.
  - vm_compute. discriminate.
Qed.
