(** The field elements of every history are in range. *)
From Coq Require Import NArith Arith List.
From Verif Require Import MPack MAcc MXmd.
Import ListNotations.

Lemma h2f_process_range C inj b p m L count junks dst buf a us a' : (p <> 0)%N ->
  h2f_process C inj b p m L count junks dst buf a = Some (us, a') ->
  length us = count /\ Forall (fun u => length u = m /\ Forall (fun x => (x < p)%N) u) us.
Proof.
  intros Hp. unfold h2f_process. destruct (xmd_process C inj b junks (count * m * L) dst buf a) as [[ub a0]|]; [|discriminate].
  cbn [bind]. intros E. injection E as <- <-. rewrite map_length, seq_length. split; [reflexivity|].
  apply Forall_map, Forall_forall. intros i _. rewrite map_length, seq_length. split; [reflexivity|].
  apply Forall_map, Forall_forall. intros j _. now apply N.mod_lt.
Qed.
Lemma h2f_run_range C inj b p m L count dst ops : (p <> 0)%N -> forall a rss,
  h2f_run C inj b p m L count dst a ops = Some rss ->
  Forall (fun us => length us = count /\ Forall (fun u => length u = m /\ Forall (fun x => (x < p)%N) u) us) rss.
Proof.
  intros Hp. induction ops as [|[vb xs|junks buf] ops IH]; intros a rss; cbn [h2f_run].
  - intros E. injection E as <-. constructor.
  - destruct (xmd_update C inj vb a xs) as [a1|]; [|discriminate]. apply IH.
  - destruct (h2f_process C inj b p m L count junks dst buf a) as [[us a1]|] eqn:E1; [|discriminate]. cbn [bind fst snd].
    destruct (h2f_run C inj b p m L count dst a1 ops) as [rs|] eqn:E2; [|discriminate]. cbn [bind]. intros E. injection E as <-.
    constructor; [exact (h2f_process_range _ _ _ _ _ _ _ _ _ _ _ _ _ Hp E1)|exact (IH _ _ E2)].
Qed.
