(** Checks that fail and the caller of sendInput (C217). *)
From Verif Require Import Base Fail_Model Fail_Spec Fail_Proofs.

(** * C217 *)
(** The schedule does not matter: every run that ends, ends in the same way, and some schedule gets there. *)
Theorem C217_every ps : exists e, ends ps e /\ (forall sched, runParts ps sched = Running \/ runParts ps sched = e) /\ exists sched, runParts ps sched = e.
Proof. destruct (ends_total ps) as [e He]. exists e. split; [exact He|]. split; [intros sched; exact (parts_fate ps sched e He)|exact (parts_reached ps e He)]. Qed.
Print Assumptions C217_every.
(** A check that fails on a thread, for example the size of a message, ends the process; the caller never sees an exception. *)
Theorem C217_threads p T t first chk : (forall b, b ∈ first -> b = true) -> onThread p T t -> false ∈ chk 0%nat t ->
  (forall sched, runParts (parts p T first chk) sched <> Exception /\ runParts (parts p T first chk) sched <> Returned) /\ exists sched, runParts (parts p T first chk) sched = Terminated.
Proof.
  intros HF HT HC. assert (ends (parts p T first chk) Terminated) as E by (apply (thread_fails p T first chk t); [intros X; by apply HF in X|done|done]). split.
  - intros sched. by destruct (parts_fate _ sched _ E) as [-> | ->].
  - exact (parts_reached _ _ E).
Qed.
Print Assumptions C217_threads.
(** Every party that has threads can be ended in this way. *)
Theorem C217_caller_refuted p T : threaded p T -> exists first chk, (forall sched, runParts (parts p T first chk) sched <> Exception) /\
  exists sched, runParts (parts p T first chk) sched = Terminated.
Proof.
  intros HT. exists [], (fun _ _ => [false]). assert (exists t, onThread p T t) as [t Ht] by (exists (threadOf p); exact (onThread_some p T HT)).
  assert (false ∈ [false]) as HC by (by left). destruct (C217_threads p T t [] (fun _ _ => [false]) ltac:(intros b Hb; by apply elem_of_nil in Hb) Ht HC) as [A B].
  split; [intros sched; exact (proj1 (A sched))|exact B].
Qed.
Print Assumptions C217_caller_refuted.
(** In RR16 an entry of the permutation that is used twice makes the caller set a promise twice while its threads run. *)
Theorem C217_permutation T first chk : (1 <= T)%nat -> (forall b, b ∈ first -> b = true) -> false ∈ chk 0%nat T -> ends (parts Rr16S T first chk) Terminated.
Proof. exact (permutation_fails T first chk). Qed.
Print Assumptions C217_permutation.
(** The share of the caller: reported if there are no threads. *)
Theorem C217_own p T first chk : (1 <= T)%nat -> (forall b, b ∈ first -> b = true) -> p ∈ [DktS; DktR; Rr16R; KkrtS; KkrtR; DcwS; DcwR] -> false ∈ chk 0%nat 0%nat ->
  (threaded p T -> ends (parts p T first chk) Terminated) /\ (~ threaded p T -> ends (parts p T first chk) Exception).
Proof. exact (own_fails p T first chk). Qed.
Print Assumptions C217_own.
(** The second part of the ECDH receiver, the masks. *)
Theorem C217_second T first chk t : (t < T)%nat -> (forall u, (u < T)%nat -> false ∉ chk 0%nat u) -> false ∈ chk 1%nat t -> ends (parts EcdhR T first chk) Terminated.
Proof. exact (second_fails T first chk t). Qed.
Print Assumptions C217_second.
(** When all checks hold, [sendInput] returns. *)
Theorem C217_returns p T first chk : false ∉ first -> (forall k t, false ∉ chk k t) -> ends (parts p T first chk) Returned.
Proof. exact (all_hold p T first chk). Qed.
Print Assumptions C217_returns.
(** Wrong inputs and sizes are reported, where they are checked at all (not in ECDH and DKT). *)
Theorem C217_inputs_partial p T first chk : checksFirst p -> false ∈ first ->
  (forall sched, runParts (parts p T first chk) sched = Running \/ runParts (parts p T first chk) sched = Exception) /\ exists sched, runParts (parts p T first chk) sched = Exception.
Proof. intros HP HF. pose proof (inputs_fail p T first chk HP HF) as E. split; [intros sched; exact (parts_fate _ sched _ E)|exact (parts_reached _ _ E)]. Qed.
Print Assumptions C217_inputs_partial.
(** Without threads (KKRT receiver, DCW; DKT and the RR16 receiver on one channel) no check ends the process. *)
Theorem C217_alone_partial p T first chk : (1 <= T)%nat -> ~ threaded p T -> forall sched, runParts (parts p T first chk) sched <> Terminated.
Proof.
  intros H1 HT sched X. destruct (ends_total (parts p T first chk)) as [e He]. destruct (parts_fate _ sched _ He) as [Y|Y]; rewrite X in Y; [done|].
  subst e. exact (unthreaded p T first chk H1 HT He).
Qed.
Print Assumptions C217_alone_partial.
(** The sender of ECDH on two channels; the second message is too short. The same error of the DKT sender on one channel is reported, on two channels it is not. *)
Example C217_example : let chk := fun _ t => [true; negb (t =? 1)%nat] in let bad := fun _ _ => [true; false] in
  onThread EcdhS 2 1 /\ runParts (parts EcdhS 2 [] chk) [None; Some 0; Some 1; Some 0; Some 1]%nat = Terminated /\
  runParts (parts EcdhS 2 [] chk) [None; Some 0; Some 0; Some 1]%nat = Running /\
  runParts (parts DktS 1 [] bad) [None; None; None] = Exception /\ runParts (parts DktS 2 [] bad) [None; None; None] = Terminated /\
  runParts (parts Rr17aR 2 [true; false] bad) [None; None] = Exception /\
  runParts (parts KkrtS 1 [true] (fun _ _ => [true])) [None; None; None; Some 0%nat; None] = Returned.
Proof. cbn zeta. split; [cbn; lia|]. by vm_compute. Qed.
