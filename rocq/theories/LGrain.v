(** The Grain LFSR: proofs. *)
From Coq Require Import NArith Arith List Bool Lia ZifyBool ZifyNat ZifyN ZArith.
From Verif Require Import SpecStream LStream SpecGrain MGrain.
Import ListNotations.
Ltac Zify.zify_post_hook ::= Z.div_mod_to_equations.

(** ** The sampler *)
(** The same recurrence over any carrier. *)
Section Lin.
Context {A : Type} (op : A -> A -> A) (d : A).
Definition gnext (s : list A) : A :=
  let b i := nth i s d in op (op (op (op (op (b 62) (b 51)) (b 38)) (b 23)) (b 13)) (b 0).
Fixpoint graw (n : nat) (s : list A) : list A :=
  match n with
  | O => []
  | S n' => gnext s :: graw n' (tl s ++ [gnext s])
  end.
End Lin.
Lemma graw_map {A B} opA dA opB dB (h : A -> B) : (forall x y, h (opA x y) = opB (h x) (h y)) -> h dA = dB ->
  forall n s, map h (graw opA dA n s) = graw opB dB n (map h s).
Proof.
  intros Hop Hd n. assert (N : forall s, h (gnext opA dA s) = gnext opB dB (map h s)).
  { intros s. unfold gnext. rewrite !Hop, <- Hd, !map_nth. reflexivity. }
  induction n as [|n IH]; intros s; [reflexivity|]. cbn [graw map]. rewrite N, IH. f_equal. f_equal.
  rewrite map_app. cbn [map]. rewrite N. f_equal. now destruct s.
Qed.
Lemma raw_graw n : forall s, raw n s = graw xorb false n s.
Proof. induction n as [|n IH]; intros s; [reflexivity|]. cbn [raw graw]. now rewrite IH. Qed.

Fixpoint evens {A} (l : list A) : list A :=
  match l with
  | a :: _ :: r => a :: evens r
  | [a] => [a]
  | [] => []
  end.
Lemma evens_map {A B} (h : A -> B) : forall l, map h (evens l) = evens (map h l).
Proof.
  fix IH 1. intros [|a [|b l]]; [reflexivity|reflexivity|]. cbn [evens map]. now rewrite IH.
Qed.

(** A set of state bits, as a mask, and the sum of the bits in it. *)
Definition ev (s : list bool) (m : N) : bool :=
  fold_left (fun acc i => xorb acc (N.testbit m (N.of_nat i) && nth i s false)) (seq 0 80) false.
Lemma ev_gen s x y l : forall a b,
  fold_left (fun acc i => xorb acc (N.testbit (N.lxor x y) (N.of_nat i) && nth i s false)) l (xorb a b) =
  xorb (fold_left (fun acc i => xorb acc (N.testbit x (N.of_nat i) && nth i s false)) l a)
       (fold_left (fun acc i => xorb acc (N.testbit y (N.of_nat i) && nth i s false)) l b).
Proof.
  induction l as [|i l IH]; intros a b; [reflexivity|]. cbn [fold_left]. rewrite <- IH. f_equal.
  rewrite N.lxor_spec. destruct (N.testbit x (N.of_nat i)), (N.testbit y (N.of_nat i)), (nth i s false), a, b; reflexivity.
Qed.
Lemma ev_xor s x y : ev s (N.lxor x y) = xorb (ev s x) (ev s y).
Proof. unfold ev. now rewrite <- ev_gen. Qed.
Lemma ev_0 s : ev s 0 = false.
Proof.
  unfold ev. generalize (seq 0 80). intros l. induction l as [|i l IH]; [reflexivity|]. cbn [fold_left].
  rewrite N.bits_0. exact IH.
Qed.
Definition units : list N := map (fun i => 2 ^ N.of_nat i)%N (seq 0 80).
Lemma ev_unit_gen s i l : forall a, NoDup l -> fold_left (fun acc j => xorb acc (N.testbit (2 ^ N.of_nat i) (N.of_nat j) && nth j s false)) l a
  = xorb a (if existsb (Nat.eqb i) l then nth i s false else false).
Proof.
  induction l as [|j l IH]; intros a ND; cbn [fold_left existsb]; [now destruct a|]. inversion ND; subst.
  rewrite IH by auto. destruct (Nat.eqb_spec i j) as [->|Hn].
  - cbn [orb]. rewrite N.pow2_bits_true. cbn [andb]. destruct (existsb (Nat.eqb j) l) eqn:E.
    + apply existsb_exists in E. destruct E as (k & Hk & E). apply Nat.eqb_eq in E. now subst.
    + now destruct a, (nth j s false).
  - rewrite N.pow2_bits_false by lia. cbn [andb orb]. now destruct a.
Qed.
Lemma ev_unit s i : i < 80 -> ev s (2 ^ N.of_nat i) = nth i s false.
Proof.
  intros Hi. unfold ev. rewrite ev_unit_gen by apply seq_NoDup.
  replace (existsb (Nat.eqb i) (seq 0 80)) with true.
  - now destruct (nth i s false).
  - symmetry. apply existsb_exists. exists i. split; [apply in_seq; lia|apply Nat.eqb_refl].
Qed.
Lemma ev_units s : length s = 80 -> map (ev s) units = s.
Proof.
  intros L. apply nth_ext with (d := false) (d' := false).
  - unfold units. now rewrite !map_length, seq_length.
  - intros i Hi. unfold units in *. rewrite !map_length, seq_length in Hi.
    rewrite map_map, (nth_indep _ false (ev s (2 ^ N.of_nat 0))) by now rewrite map_length, seq_length.
    rewrite (map_nth (fun j => ev s (2 ^ N.of_nat j)%N)), seq_nth by auto. now apply ev_unit.
Qed.

(** Sums of the even output bits that give back each state bit (found by elimination; checked below). *)
Definition recover : list N :=
  [0xc004b027211c00001a40; 0x351ac56fa132c1e6fa19; 0x80092046427800801481; 0x6a358adf426583cdf432;
   0x12008484b001800903; 0xd46b15be84cb079be864; 0x240109096003001206; 0xa8d66b7509d60fb7f0c9;
   0x48021212c00600240c; 0x51ac96e213ec1fefc193; 0x90042425800c004818; 0xa3592dc427d83fdf8326;
   0x12008484b0018009030; 0x46b21b804ff07f3f264d; 0x2401090960030012060; 0x8d6437009fe0fe7e4c9a;
   0x48021212c00600240c0; 0x1ac82e093f81fc7cb935; 0x90042425800c0048180; 0x35905c127f03f8f9726a;
   0x12008484b00180090300; 0x6b20b824fe07f1f2e4d4; 0x24010909600300120600; 0xd6417049fc0fe3e5c9a8;
   0x48021212c00600240c00; 0xac82a09bf85fc74bb351; 0x90042425800c00481800; 0x5905013ff0ff8e1746a3;
   0x20080843005800101001; 0xb20a027fe1ff1c2e8d46; 0x4010108600b000202002; 0x641444f7c3be38dd3a8d;
   0x8020210c016000404004; 0xc82889ef877c71ba751a; 0x40021002800000a009; 0x905153d70eb8e3f4ca35;
   0x800420050000014012; 0x20a2e7a61d31c769b46b; 0x10008400a0000028024; 0x4145cf4c3a638ed368d6;
   0x2001080140000050048; 0x828b9e9874c71da6d1ac; 0x40021002800000a0090; 0x5177d38e9ce3bcd8359;
   0x8004200500000140120; 0xa2efa71d39c779b06b2; 0x10008400a00000280240; 0x145df4e3a738ef360d64;
   0x20010801400000500480; 0x28bbe9c74e71de6c1ac8; 0x40021002800000a00900; 0x5177d38e9ce3bcd83590;
   0x80042005000001401200; 0xa2efa71d39c779b06b20; 0x80002004002000401; 0x45df0e3273cef3e0f641;
   0x100004008004000802; 0x8bbe1c64e79de7c1ec82; 0x200008010008001004; 0x177c78c1cf7bcf03f905;
   0x400010020010002008; 0x2ef8f1839ef79e07f20a; 0x800020040020004010; 0x5df1e3073def3c0fe414;
   0x1000040080040008020; 0xbbe3c60e7bde781fc828; 0x2000080100080010040; 0x77c7cc14f7fcf0bfb051;
   0x4000100200100020080; 0xef8f9829eff9e17f60a2; 0x8000200400200040100; 0xdf1f705bdfb3c27ee145;
   0x10000400800400080200; 0xbe3ea0bfbf27847de28b; 0x20000801000800100400; 0x7c7d01777e0f087be517;
   0x40001002001000200800; 0xf8fa02eefc1e10f7ca2e; 0x80002004002000401000; 0xf1f445d5f87c216fb45d]%N.
Definition combine_masks (sel : N) (ms : list N) : N :=
  fold_left (fun acc p => if N.testbit sel (N.of_nat (fst p)) then N.lxor acc (snd p) else acc) (combine (seq 0 (length ms)) ms) 0%N.
Lemma recover_ok : map (fun sel => combine_masks sel (evens (graw N.lxor 0%N 160 units))) recover = units.
Proof. vm_compute. reflexivity. Qed.
Lemma combine_zero s sel ms : Forall (fun m => ev s m = false) ms -> ev s (combine_masks sel ms) = false.
Proof.
  intros F. unfold combine_masks.
  assert (G : forall l acc, ev s acc = false -> Forall (fun p => ev s (snd p) = false) l ->
    ev s (fold_left (fun acc p => if N.testbit sel (N.of_nat (fst p)) then N.lxor acc (snd p) else acc) l acc) = false).
  { intros l. induction l as [|p l IH]; intros acc Ha Fl; [exact Ha|]. inversion Fl; subst. cbn [fold_left].
    apply IH; auto. destruct (N.testbit sel _); auto. rewrite ev_xor, Ha. now destruct (ev s (snd p)). }
  apply G; [apply ev_0|]. apply Forall_forall. intros [i m] Hin. apply in_combine_r in Hin. rewrite Forall_forall in F. now apply F.
Qed.
Lemma all_false s : length s = 80 -> Forall (fun b => b = false) (evens (raw 160 s)) -> s = repeat false 80.
Proof.
  intros L F. rewrite raw_graw in F.
  rewrite <- (ev_units s L) in F at 1.
  rewrite <- (graw_map N.lxor 0%N xorb false (ev s) (ev_xor s) (ev_0 s)), <- evens_map in F.
  rewrite <- (ev_units s L), <- recover_ok, map_map.
  transitivity (map (fun _ : N => false) recover); [|reflexivity].
  apply map_ext. intros sel. apply combine_zero. rewrite Forall_map in F. exact F.
Qed.

(** ** States and steps *)
Lemma iter_S_r {A} (f : A -> A) n x : Nat.iter (S n) f x = Nat.iter n f (f x).
Proof. induction n as [|n IH]; [reflexivity|]. change (f (Nat.iter (S n) f x) = f (Nat.iter n f (f x))). now rewrite IH. Qed.
Lemma shift_length s : length s = 80 -> length (shift s) = 80.
Proof. intros L. unfold shift. rewrite app_length. destruct s; cbn [tl length] in *; lia. Qed.
Lemma iter_length n s : length s = 80 -> length (Nat.iter n shift s) = 80.
Proof. intros L. induction n as [|n IH]; [exact L|]. apply shift_length, IH. Qed.
Lemma iter_shift_S n s : Nat.iter n shift (shift s) = Nat.iter (S n) shift s.
Proof. symmetry. apply iter_S_r. Qed.
Lemma raw_app n m s : raw (n + m) s = raw n s ++ raw m (Nat.iter n shift s).
Proof.
  revert s. induction n as [|n IH]; intros s; [reflexivity|]. cbn [Nat.add raw app]. rewrite IH, iter_shift_S. reflexivity.
Qed.
Lemma raw_length n : forall s, length (raw n s) = n.
Proof. induction n as [|n IH]; intros s; [reflexivity|]. cbn [raw length]. now rewrite IH. Qed.
Lemma outputs_raw s len : outputs s len = shrink (raw len (Nat.iter 160 shift s)).
Proof.
  unfold outputs. rewrite raw_app.
  replace (skipn 160 _) with (raw len (Nat.iter 160 shift s)); [reflexivity|].
  rewrite <- (raw_length 160 s) at 2. now rewrite skipn_app, skipn_all, Nat.sub_diag.
Qed.
Definition zero80 : list bool := repeat false 80.
Lemma shift_zero s : length s = 80 -> shift s = zero80 -> s = zero80.
Proof.
  intros L H. destruct s as [|b t]; [discriminate|]. unfold shift in H. cbn [tl] in H. injection L as L.
  change zero80 with (repeat false 79 ++ [false]) in H. apply app_inj_tail in H. destruct H as [-> H].
  unfold next in H. cbn in H. destruct b; [discriminate|reflexivity].
Qed.
Lemma shift_nonzero s : length s = 80 -> s <> zero80 -> shift s <> zero80.
Proof. intros L N E. apply N, shift_zero; auto. Qed.
Lemma iter_nonzero n s : length s = 80 -> s <> zero80 -> Nat.iter n shift s <> zero80.
Proof. intros L N. induction n as [|n IH]; [exact N|]. apply shift_nonzero; auto. now apply iter_length. Qed.
(** The step backwards. *)
Definition unshift (s : list bool) : list bool :=
  let b i := nth i s false in
  xorb (xorb (xorb (xorb (xorb (b 79) (b 61)) (b 50)) (b 37)) (b 22)) (b 12) :: removelast s.
Lemma xor6 a b c d e f : xorb (xorb (xorb (xorb (xorb (xorb (xorb (xorb (xorb (xorb a b) c) d) e) f) a) b) c) d) e = f.
Proof. now destruct a, b, c, d, e, f. Qed.
Lemma unshift_shift s : length s = 80 -> unshift (shift s) = s.
Proof.
  intros L. destruct s as [|b t]; [discriminate|]. injection L as L. unfold unshift, shift. cbn [tl].
  rewrite removelast_last. f_equal. rewrite (app_nth2 t _ false (n := 79)), L by lia. cbn [Nat.sub nth].
  rewrite !app_nth1 by lia. unfold next. cbn [nth]. apply xor6.
Qed.
Lemma shift_unshift s : length s = 80 -> shift (unshift s) = s.
Proof.
  intros L. assert (E : s = removelast s ++ [last s false]) by (apply app_removelast_last; intros ->; discriminate).
  revert E. generalize (removelast s), (last s false). intros t z ->.
  assert (Lt : length t = 79) by (rewrite app_length in L; cbn [length] in L; lia).
  unfold shift, unshift. rewrite removelast_last. cbn [tl]. f_equal. f_equal. unfold next. cbn [nth].
  rewrite (app_nth2 t _ false (n := 79)), Lt by lia. cbn [Nat.sub nth].
  rewrite !app_nth1 by lia. generalize (nth 61 t false), (nth 50 t false), (nth 37 t false), (nth 22 t false), (nth 12 t false).
  intros x2 x3 x4 x5 x6. now destruct z, x2, x3, x4, x5, x6.
Qed.

(** ** The integer state of the code *)
Lemma msb_length w v : length (msb_bits w v) = w.
Proof. unfold msb_bits. now rewrite map_length, seq_length. Qed.
Lemma msb_nth w v i : i < w -> nth i (msb_bits w v) false = N.testbit v (N.of_nat (w - 1 - i)).
Proof.
  intros Hi. unfold msb_bits.
  rewrite (nth_indep _ false (N.testbit v (N.of_nat (w - 1 - 0)))) by now rewrite map_length, seq_length.
  rewrite (map_nth (fun i => N.testbit v (N.of_nat (w - 1 - i)))), seq_nth by auto. reflexivity.
Qed.
Lemma nth_tl_app s (b : bool) i : i < 80 -> length s = 80 -> nth i (tl s ++ [b]) false = if i =? 79 then b else nth (S i) s false.
Proof.
  intros Hi L. destruct s as [|c t]; [discriminate|]. injection L as L. cbn [tl nth].
  destruct (Nat.eqb_spec i 79) as [->|Hn].
  - rewrite app_nth2, L by lia. reflexivity.
  - now rewrite app_nth1 by lia.
Qed.
Lemma set_new_bit80_msb v b : msb_bits 80 (set_new_bit80 v b) = tl (msb_bits 80 v) ++ [b].
Proof.
  assert (L : length (tl (msb_bits 80 v) ++ [b]) = 80) by reflexivity.
  apply nth_ext with (d := false) (d' := false); [now rewrite msb_length|].
  intros i Hi. rewrite msb_length in Hi. rewrite nth_tl_app by (auto; apply msb_length). rewrite msb_nth by auto. unfold set_new_bit80.
  rewrite N.lor_spec. destruct (Nat.eqb_spec i 79) as [->|Hn].
  - cbn [Nat.sub]. change (N.of_nat 0) with 0%N. rewrite N.mod_pow2_bits_low, N.shiftl_spec_low by lia. now destruct b.
  - rewrite msb_nth by lia. rewrite N.mod_pow2_bits_low by lia. rewrite N.shiftl_spec_high' by lia.
    replace (N.of_nat (80 - 1 - i) - 1)%N with (N.of_nat (80 - 1 - S i)) by lia.
    replace (N.testbit (if b then 1 else 0) _) with false; [now rewrite orb_false_r|].
    replace (N.of_nat (80 - 1 - i)) with (N.succ (N.of_nat (80 - 1 - S i))) by lia.
    destruct b; [|now rewrite N.bits_0]. change 1%N with (2 ^ 0)%N. rewrite N.pow2_bits_false by lia. reflexivity.
Qed.
Lemma get_bit_msb v pos : (pos < 80)%N -> get_lfsr_state_bit v pos = nth (N.to_nat pos) (msb_bits 80 v) false.
Proof. intros H. rewrite msb_nth by lia. unfold get_lfsr_state_bit. f_equal. lia. Qed.
Lemma neq_xorb a b : neq a b = xorb a b.
Proof. now destruct a, b. Qed.
Lemma update_raw_msb v : msb_bits 80 (update_lfsr_state_raw v) = shift (msb_bits 80 v).
Proof.
  unfold update_lfsr_state_raw. rewrite set_new_bit80_msb. unfold shift. f_equal. f_equal.
  rewrite !neq_xorb, !get_bit_msb by lia. unfold next.
  change (N.to_nat 0) with 0. change (N.to_nat 13) with 13. change (N.to_nat 23) with 23.
  change (N.to_nat 38) with 38. change (N.to_nat 51) with 51. change (N.to_nat 62) with 62.
  generalize (nth 0 (msb_bits 80 v) false), (nth 13 (msb_bits 80 v) false), (nth 23 (msb_bits 80 v) false),
    (nth 38 (msb_bits 80 v) false), (nth 51 (msb_bits 80 v) false), (nth 62 (msb_bits 80 v) false).
  intros x1 x2 x3 x4 x5 x6. now destruct x1, x2, x3, x4, x5, x6.
Qed.
Lemma iter_raw_msb n v : msb_bits 80 (Nat.iter n update_lfsr_state_raw v) = Nat.iter n shift (msb_bits 80 v).
Proof. induction n as [|n IH]; [reflexivity|]. change (Nat.iter (S n) ?f ?x) with (f (Nat.iter n f x)). now rewrite update_raw_msb, IH. Qed.
Lemma shift_last s : length s = 80 -> nth 79 (shift s) false = next s.
Proof. intros L. unfold shift. rewrite nth_tl_app by (auto; lia). reflexivity. Qed.
Lemma get_last v : get_lfsr_state_bit v (80 - 1) = nth 79 (msb_bits 80 v) false.
Proof. rewrite get_bit_msb by lia. reflexivity. Qed.

(** Pushing bits. *)
Definition push (bs s : list bool) : list bool := fold_left (fun s b => tl s ++ [b]) bs s.
Lemma push_gen bs : forall s, length bs <= length s -> push bs s = skipn (length bs) s ++ bs.
Proof.
  induction bs as [|b bs IH]; intros s L; cbn [push fold_left length] in *; [now rewrite app_nil_r|].
  destruct s as [|c s]; cbn [length tl] in *; [lia|]. fold (push bs (s ++ [b])). rewrite IH by (rewrite app_length; cbn [length]; lia).
  cbn [skipn]. rewrite skipn_app. replace (length bs - length s) with 0 by lia. cbn [skipn]. now rewrite <- app_assoc.
Qed.
Lemma push_app a b s : push (a ++ b) s = push b (push a s).
Proof. apply fold_left_app. Qed.
Lemma msb_S i v : msb_bits (S i) v = N.testbit v (N.of_nat i) :: msb_bits i v.
Proof.
  unfold msb_bits. cbn [seq map]. f_equal; [f_equal; lia|]. rewrite <- seq_shift, map_map. apply map_ext. intros j. f_equal. lia.
Qed.
Lemma set_bits_msb k v : forall st, msb_bits 80 (set_bits k v st) = push (msb_bits k v) (msb_bits 80 st).
Proof.
  induction k as [|i IH]; intros st; [reflexivity|]. cbn [set_bits]. rewrite IH, set_new_bit80_msb, (msb_S i).
  rewrite <- N.testbit_odd. reflexivity.
Qed.
Lemma ones_msb n st : msb_bits 80 (Nat.iter n (fun state => set_new_bit80 state true) st) = push (repeat true n) (msb_bits 80 st).
Proof.
  revert st. induction n as [|n IH]; intros st; [reflexivity|]. rewrite iter_S_r, IH, set_new_bit80_msb. reflexivity.
Qed.
Lemma init_length a b wb sw f p : length (init a b wb sw f p) = 80.
Proof. unfold init. rewrite !app_length, !msb_length, repeat_length. reflexivity. Qed.
Lemma init_msb wb sw f p : msb_bits 80 (get_lfsr_init_state wb sw f p) = Nat.iter 160 shift (init 1 1 wb sw f p).
Proof.
  unfold get_lfsr_init_state. rewrite iter_raw_msb. f_equal. rewrite ones_msb, !set_bits_msb, <- !push_app.
  match goal with |- push ?l _ = _ => replace l with (init 1 1 wb sw f p) by (unfold init; now rewrite <- ?app_assoc) end.
  rewrite push_gen, init_length; [|rewrite init_length, msb_length; lia]. 
  rewrite skipn_all2 by (rewrite msb_length; lia). reflexivity.
Qed.
Lemma init_nonzero a b wb sw f p : init a b wb sw f p <> zero80.
Proof.
  intros E. assert (H : nth 79 (init a b wb sw f p) false = nth 79 zero80 false) by now rewrite E.
  unfold init in H. rewrite !app_assoc in H. rewrite app_nth2 in H; rewrite !app_length, !msb_length in *; cbn in *; [discriminate|lia].
Qed.

(** ** Runs of the sampler *)
(** From state [s] the sampler outputs [l] and arrives at [s']. *)
Definition run (s l s' : list bool) : Prop := exists n, shrink (raw (2 * n) s) = l /\ s' = Nat.iter (2 * n) shift s.
Lemma shrink_app n : forall a b, length a = 2 * n -> shrink (a ++ b) = shrink a ++ shrink b.
Proof.
  induction n as [|n IH]; intros a b L.
  - now destruct a.
  - destruct a as [|x [|y a]]; cbn [length] in L; try lia. cbn [app shrink]. rewrite (IH a b) by lia. now destruct x.
Qed.
Lemma shrink_raw_app n m s : shrink (raw (2 * n + m) s) = shrink (raw (2 * n) s) ++ shrink (raw m (Nat.iter (2 * n) shift s)).
Proof. rewrite raw_app. apply (shrink_app n), raw_length. Qed.
Lemma iter_add {A} (f : A -> A) n m x : Nat.iter (n + m) f x = Nat.iter m f (Nat.iter n f x).
Proof. revert x. induction n as [|n IH]; intros x; [reflexivity|]. change (S n + m) with (S (n + m)). now rewrite !iter_S_r, IH. Qed.
Lemma run_nil s : run s [] s.
Proof. exists 0. now split. Qed.
Lemma run_app s1 l1 s2 l2 s3 : run s1 l1 s2 -> run s2 l2 s3 -> run s1 (l1 ++ l2) s3.
Proof.
  intros (n & <- & ->) (m & <- & ->). exists (n + m). replace (2 * (n + m)) with (2 * n + 2 * m) by lia.
  now rewrite shrink_raw_app, iter_add.
Qed.
Lemma run_length s l s' : run s l s' -> length s = 80 -> length s' = 80.
Proof. intros (n & _ & ->) L. now apply iter_length. Qed.
Lemma run_nonzero s l s' : run s l s' -> length s = 80 -> s <> zero80 -> s' <> zero80.
Proof. intros (n & _ & ->) L N. now apply iter_nonzero. Qed.

Lemma raw_2 s : raw 2 s = [next s; next (shift s)].
Proof. reflexivity. Qed.
Lemma update_run fuel : forall v v', update_lfsr_state fuel v = Some v' ->
  run (msb_bits 80 v) [get_lfsr_state_bit v' (80 - 1)] (msb_bits 80 v').
Proof.
  induction fuel as [|f IH]; intros v v' H; [discriminate|]. cbn [update_lfsr_state] in H.
  rewrite get_last, update_raw_msb, shift_last in H by apply msb_length.
  destruct (next (msb_bits 80 v)) eqn:E.
  - injection H as <-. exists 1. change (2 * 1) with 2. rewrite raw_2, E. cbn [shrink]. split.
    + f_equal. rewrite get_last, !update_raw_msb, shift_last by (apply shift_length, msb_length). reflexivity.
    + now rewrite !update_raw_msb.
  - apply IH in H. rewrite !update_raw_msb in H. apply (run_app _ [] (shift (shift (msb_bits 80 v))) [_]); [|exact H].
    exists 1. change (2 * 1) with 2. rewrite raw_2, E. now split.
Qed.
Lemma update_none fuel : forall v, update_lfsr_state fuel v = None ->
  Forall (fun b => b = false) (evens (raw (2 * fuel) (msb_bits 80 v))).
Proof.
  induction fuel as [|f IH]; intros v H; [constructor|]. cbn [update_lfsr_state] in H.
  rewrite get_last, update_raw_msb, shift_last in H by apply msb_length.
  replace (2 * S f) with (S (S (2 * f))) by lia. cbn [raw evens].
  destruct (next (msb_bits 80 v)) eqn:E; [discriminate|]. constructor; auto. apply IH in H. now rewrite !update_raw_msb in H.
Qed.
Lemma update_mono f1 : forall f2 v v', f1 <= f2 -> update_lfsr_state f1 v = Some v' -> update_lfsr_state f2 v = Some v'.
Proof.
  induction f1 as [|f1 IH]; intros f2 v v' Hf H; [discriminate|]. destruct f2 as [|f2]; [lia|]. cbn [update_lfsr_state] in *.
  destruct (get_lfsr_state_bit _ _); auto. apply IH; auto. lia.
Qed.
Lemma update_total fuel v : 80 <= fuel -> msb_bits 80 v <> zero80 -> exists v', update_lfsr_state fuel v = Some v'.
Proof.
  intros Hf N. destruct (update_lfsr_state 80 v) as [v'|] eqn:E.
  - exists v'. now apply (update_mono 80).
  - exfalso. apply N, all_false; [apply msb_length|]. apply (update_none 80 v E).
Qed.

Definition num_from (c : N) (bs : list bool) : N := fold_left (fun v (b : bool) => (2 * v + (if b then 1 else 0))%N) bs c.
Lemma set_new_bit_num v b : set_new_bit v b = (2 * v + (if b then 1 else 0))%N.
Proof.
  unfold set_new_bit. rewrite N.shiftl_mul_pow2, N.pow_1_r, (N.mul_comm v 2).
  destruct b; [|now rewrite N.lor_0_r, N.add_0_r]. apply N.bits_inj. intros i.
  rewrite N.lor_spec. destruct (N.eq_dec i 0) as [->|Hi].
  - now rewrite !N.bit0_odd, N.odd_add, !N.odd_mul.
  - replace i with (N.succ (N.pred i)) by lia.
    rewrite N.testbit_succ_r_div2, (N.testbit_succ_r_div2 (2 * v + 1)), (N.testbit_succ_r_div2 1) by lia.
    rewrite N.div2_double, N.div2_succ_double || idtac.
    rewrite !N.div2_div. replace ((2 * v + 1) / 2)%N with v by lia. replace (1 / 2)%N with 0%N by reflexivity.
    rewrite N.bits_0, orb_false_r. f_equal. lia.
Qed.
Lemma constant_run fuel w : forall v c v' c', constant_bits fuel w v c = Some (v', c') ->
  exists l, length l = w /\ run (msb_bits 80 v) l (msb_bits 80 v') /\ c' = num_from c l.
Proof.
  induction w as [|j IH]; intros v c v' c' H; cbn [constant_bits] in H.
  - injection H as <- <-. exists []. repeat split. apply run_nil.
  - destruct (update_lfsr_state fuel v) as [v1|] eqn:E; [|discriminate]. apply update_run in E. apply IH in H.
    destruct H as (l & L & R & ->). exists (get_lfsr_state_bit v1 (80 - 1) :: l). split; [cbn [length]; lia|]. split.
    + exact (run_app _ [_] _ _ _ E R).
    + cbn [num_from fold_left]. now rewrite set_new_bit_num.
Qed.
Lemma constant_total fuel w : 80 <= fuel -> forall v c, msb_bits 80 v <> zero80 -> exists r, constant_bits fuel w v c = Some r.
Proof.
  intros Hf. induction w as [|j IH]; intros v c N; cbn [constant_bits]; [eauto|].
  destruct (update_total fuel v Hf N) as (v1 & E). rewrite E. apply IH.
  apply update_run in E. exact (run_nonzero _ _ _ E (msb_length _ _) N).
Qed.
Lemma below_app p a b : below p (a ++ b) = below p a ++ below p b.
Proof. apply filter_app. Qed.
Lemma one_run fuel tries w p : forall v v' c, one_constant fuel tries w p v = Some (v', c) ->
  exists ls, Forall (fun l => length l = w) ls /\ run (msb_bits 80 v) (concat ls) (msb_bits 80 v') /\ below p (map num ls) = [c].
Proof.
  induction tries as [|k IH]; intros v v' c H; cbn [one_constant] in H; [discriminate|].
  destruct (constant_bits fuel w v 0) as [[v1 c1]|] eqn:E; [|discriminate]. apply constant_run in E. destruct E as (l & L & R & Ec).
  change (num_from 0 l) with (num l) in Ec. destruct (N.ltb_spec c1 p) as [Hc|Hc].
  - injection H as <- <-. exists [l]. split; [auto|]. cbn [concat map]. rewrite app_nil_r. split; [exact R|].
    rewrite <- Ec. unfold below. cbn [filter]. apply N.ltb_lt in Hc. now rewrite Hc.
  - apply IH in H. destruct H as (ls & F & R' & B). exists (l :: ls). split; [auto|]. split; [exact (run_app _ _ _ _ _ R R')|].
    cbn [map]. rewrite <- Ec. unfold below. cbn [filter]. apply N.ltb_ge in Hc. now rewrite Hc.
Qed.
Lemma loop_run fuel tries k w p : forall v cs, constants_loop fuel tries k w p v = Some cs ->
  length cs = k /\ exists ls v', Forall (fun l => length l = w) ls /\ run (msb_bits 80 v) (concat ls) (msb_bits 80 v') /\ below p (map num ls) = cs.
Proof.
  induction k as [|k IH]; intros v cs H; cbn [constants_loop] in H.
  - injection H as <-. split; auto. exists [], v. repeat split; auto. apply run_nil.
  - destruct (one_constant fuel tries w p v) as [[v1 c]|] eqn:E; [|discriminate].
    destruct (constants_loop fuel tries k w p v1) as [cs1|] eqn:E1; [|discriminate]. injection H as <-.
    apply one_run in E. destruct E as (l1 & F1 & R1 & B1). apply IH in E1. destruct E1 as (L & l2 & v2 & F2 & R2 & B2).
    split; [cbn [length]; lia|]. exists (l1 ++ l2), v2. split; [apply Forall_app; auto|]. rewrite concat_app, map_app, below_app, B1, B2.
    split; [exact (run_app _ _ _ _ _ R1 R2)|reflexivity].
Qed.
Lemma chunks_of_concat {A} w (ls : list (list A)) (x : list A) : 0 < w -> Forall (fun l => length l = w) ls -> 
  chunks w (concat ls ++ x) = ls ++ chunks w x.
Proof.
  intros Hw F. induction F as [|l ls L F IH]; [reflexivity|]. cbn [concat app]. rewrite <- app_assoc, chunks_cons, IH by auto. reflexivity.
Qed.

(** ** The generator: what it returns is the stream, and it returns if the stream has enough small integers *)
Definition remaining (w : nat) (s : list bool) (ls : list (list bool)) : Prop :=
  exists len extra, shrink (raw len s) = concat ls ++ extra /\ Forall (fun l => length l = w) ls.
Lemma shrink_raw_prefix n m s : n <= m -> exists x, shrink (raw m s) = shrink (raw n s) ++ x.
Proof.
  intros H. assert (E : exists k, n = 2 * k \/ n = 2 * k + 1) by (exists (n / 2); lia). destruct E as (k & [E|E]).
  - exists (shrink (raw (m - n) (Nat.iter n shift s))). replace m with (2 * k + (m - n)) at 1 by lia. subst n. apply shrink_raw_app.
  - assert (S1 : shrink (raw n s) = shrink (raw (2 * k) s)).
    { rewrite E, shrink_raw_app. cbn [raw shrink]. now rewrite app_nil_r. }
    rewrite S1. replace m with (2 * k + (m - 2 * k)) by lia. rewrite shrink_raw_app. eauto.
Qed.
Lemma remaining_step w s l ls l' s' : remaining w s (l :: ls) -> run s l' s' -> length l' = w -> l' = l /\ remaining w s' ls.
Proof.
  intros (len & extra & E & F) (n & En & ->) L. assert (H1 : length l = w) by exact (Forall_inv F). assert (F' := Forall_inv_tail F). clear F. rename F' into F. cbn [concat] in E. rewrite <- app_assoc in E.
  destruct (Nat.le_gt_cases (2 * n) len) as [Hc|Hc].
  - replace len with (2 * n + (len - 2 * n)) in E by lia. rewrite shrink_raw_app, En in E.
    assert (Hl : l' = l). { apply (f_equal (firstn w)) in E. rewrite !firstn_app in E. replace (w - length l') with 0 in E by lia.
      replace (w - length l) with 0 in E by lia. cbn [firstn] in E. rewrite !app_nil_r in E.
      rewrite <- L in E at 1. rewrite firstn_all in E. rewrite <- H1, firstn_all in E. exact E. }
    rewrite Hl in E. apply app_inv_head in E. split; auto. exists (len - 2 * n), extra. auto.
  - destruct (shrink_raw_prefix len (2 * n) s) as (x & Ex); [lia|]. rewrite En, E in Ex.
    assert (Hlen := f_equal (@length bool) Ex). rewrite !app_length in Hlen.
    assert (Hls : concat ls = []) by (apply length_zero_iff_nil; lia).
    assert (extra = []) by (apply length_zero_iff_nil; lia). assert (x = []) by (apply length_zero_iff_nil; lia). subst.
    rewrite Hls, !app_nil_r in Ex. split; auto. exists 0, []. rewrite Hls. split; auto.
Qed.
Lemma one_total fuel w p : 80 <= fuel -> forall ls tries v, length ls <= tries -> msb_bits 80 v <> zero80 ->
  remaining w (msb_bits 80 v) ls -> below p (map num ls) <> [] ->
  exists v' c ls', one_constant fuel tries w p v = Some (v', c) /\ msb_bits 80 v' <> zero80 /\ remaining w (msb_bits 80 v') ls' /\
    length ls' < length ls /\ below p (map num ls) = c :: below p (map num ls').
Proof.
  intros Hf ls. induction ls as [|l ls IH]; intros tries v Ht N R B; [now destruct B|].
  destruct tries as [|k]; cbn [length] in Ht; [lia|]. cbn [one_constant].
  destruct (constant_total fuel w Hf v 0 N) as ([v1 c1] & E). rewrite E. apply constant_run in E. destruct E as (l' & L & Rn & ->).
  destruct (remaining_step _ _ _ _ _ _ R Rn L) as [-> R'].
  assert (N1 : msb_bits 80 v1 <> zero80) by exact (run_nonzero _ _ _ Rn (msb_length _ _) N).
  change (num_from 0 l) with (num l). cbn [map] in *. unfold below in *. cbn [filter] in *.
  destruct (num l <? p)%N eqn:C.
  - exists v1, (num l), ls. repeat split; auto.
  - destruct (IH k v1) as (v' & c & ls' & H1 & H2 & H3 & H4 & H5); auto; [lia|]. exists v', c, ls'. repeat split; auto. cbn [length]. lia.
Qed.
Lemma loop_total fuel tries w p : 80 <= fuel -> forall k ls v, length ls <= tries -> msb_bits 80 v <> zero80 ->
  remaining w (msb_bits 80 v) ls -> k <= length (below p (map num ls)) ->
  constants_loop fuel tries k w p v = Some (firstn k (below p (map num ls))).
Proof.
  intros Hf k. induction k as [|k IH]; intros ls v Ht N R Hk; [reflexivity|]. cbn [constants_loop].
  destruct (one_total fuel w p Hf ls tries v) as (v' & c & ls' & H1 & H2 & H3 & H4 & H5); auto.
  { intros E. rewrite E in Hk. cbn [length] in Hk. lia. }
  rewrite H1, (IH ls' v'); auto; [|lia|].
  - now rewrite H5.
  - rewrite H5 in Hk. cbn [length] in Hk. lia.
Qed.

Theorem generate_sound fuel tries w t RF RP p cs : 0 < w ->
  generate_round_constants fuel tries w t RF RP p = Some cs ->
  length cs = (RF + RP) * t /\
  exists len, below p (integers (init 1 1 (N.of_nat w) (N.of_nat t) (N.of_nat RF) (N.of_nat RP)) w len) = cs.
Proof.
  intros Hw H. apply loop_run in H. destruct H as (L & ls & v' & F & (n & R & _) & B). split; auto. exists (2 * n).
  unfold integers. rewrite outputs_raw, <- init_msb, R, <- (app_nil_r (concat ls)), chunks_of_concat, chunks_nil, app_nil_r by auto. exact B.
Qed.
Lemma constants_complete fuel tries k w a b c d p len : 0 < w ->
  let vs := integers (init 1 1 a b c d) w len in
  80 <= fuel -> length vs <= tries -> k <= length (below p vs) ->
  constants_loop fuel tries k w p (get_lfsr_init_state a b c d) = Some (firstn k (below p vs)).
Proof.
  intros Hw vs Hf Ht Hk. unfold vs, integers in *. rewrite map_length in Ht. apply loop_total; auto.
  - rewrite init_msb. apply iter_nonzero; [apply init_length|apply init_nonzero].
  - rewrite init_msb. rewrite outputs_raw. set (o := shrink _). exists len.
    assert (F := chunks_Forall w o Hw).
    assert (E : exists x, o = concat (chunks w o) ++ x).
    { exists (skipn (w * (length o / w)) o). rewrite <- (firstn_skipn (w * (length o / w)) o) at 1. f_equal.
      assert (Q : length (firstn (w * (length o / w)) o) = w * (length o / w)) by (apply firstn_length_le, Nat.mul_div_le; lia).
      assert (M : length (firstn (w * (length o / w)) o) mod w = 0) by (rewrite Q, Nat.mul_comm; apply Nat.mod_mul; lia).
      rewrite <- (firstn_skipn (w * (length o / w)) o) at 3. rewrite chunks_app, concat_app, chunks_concat by auto.
      rewrite (chunks_lt w (skipn _ o)), app_nil_r; [reflexivity|]. rewrite skipn_length. 
      pose proof (Nat.mod_upper_bound (length o) w). pose proof (Nat.div_mod (length o) w). lia. }
    destruct E as (x & E). exists x. split; auto.
Qed.
Theorem generate_complete fuel tries w t RF RP p len : 0 < w ->
  let vs := integers (init 1 1 (N.of_nat w) (N.of_nat t) (N.of_nat RF) (N.of_nat RP)) w len in
  80 <= fuel -> length vs <= tries -> (RF + RP) * t <= length (below p vs) ->
  generate_round_constants fuel tries w t RF RP p = Some (firstn ((RF + RP) * t) (below p vs)).
Proof. intros Hw vs Hf Ht Hk. now apply constants_complete. Qed.
Theorem rc_generate_complete fuel tries w t RP p len : 0 < w ->
  let RF := 2 * (RP + 1) in
  let vs := integers (init 1 1 (N.of_nat w) (N.of_nat t) (N.of_nat RF) (N.of_nat RP)) w len in
  80 <= fuel -> length vs <= tries -> RF * t <= length (below p vs) ->
  rc_generate_round_constants fuel tries w t RP p = Some (firstn (RF * t) (below p vs)).
Proof. intros Hw RF vs Hf Ht Hk. now apply constants_complete. Qed.
Theorem rc_generate_sound fuel tries w t RP p cs : 0 < w ->
  rc_generate_round_constants fuel tries w t RP p = Some cs ->
  length cs = 2 * (RP + 1) * t /\
  exists len, below p (integers (init 1 1 (N.of_nat w) (N.of_nat t) (N.of_nat (2 * (RP + 1))) (N.of_nat RP)) w len) = cs.
Proof.
  intros Hw H. apply loop_run in H. destruct H as (L & ls & v' & F & (n & R & _) & B). split; auto. exists (2 * n).
  unfold integers. rewrite outputs_raw, <- init_msb, R, <- (app_nil_r (concat ls)), chunks_of_concat, chunks_nil, app_nil_r by auto. exact B.
Qed.
