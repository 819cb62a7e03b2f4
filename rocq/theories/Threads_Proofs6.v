(** Runs by a given schedule, for witnesses. *)
From stdpp Require Import sorting sets.
From Verif Require Import Base Partition_Model Partition_Proofs Sched_Model Sched_Spec Sched_Proofs Sched_Proofs2 Sched_Proofs3 Threads_Model Threads_Proofs Threads_Proofs2 Threads_Proofs3 Threads_Proofs4 Threads_Proofs5.

Global Instance enabled_dec l e : Decision (enabled l e).
Proof. destruct e; cbn; apply _. Defined.
Fixpoint runs (s : state) (tr : list (nat * ev)) (sched : list nat) : option (list (nat * ev) * state) :=
  match sched with
  | [] => Some (tr, s)
  | i :: sched' => match todo s !! i with
                   | Some (e :: rest) => if decide (enabled (sentLog s) e) then runs (mkState (<[i := rest]> (todo s)) (effect e (sentLog s))) (tr ++ [(i, e)]) sched' else None
                   | _ => None
                   end
  end.
Lemma runs_exec s0 s tr sched tr' s' : exec s0 tr s -> runs s tr sched = Some (tr', s') -> exec s0 tr' s'.
Proof.
  revert s tr. induction sched as [|i sched IH]; intros s tr He H; cbn in H; [by injection H as <- <-|].
  destruct (todo s !! i) as [[|e rest]|] eqn:Ht; try done. destruct (decide (enabled (sentLog s) e)) as [Hen|]; [|done].
  eapply IH; [|exact H]. econstructor; [exact He|]. by constructor.
Qed.

(** RR17b with three bins and two threads: the sender's first thread expects the corrections of two bins and gets those of one. *)
Definition bW : rr17b := mkRr17b 2 3 1 2 4 1 2 (fun _ => []).
Lemma rr17b_wrong : exists tr s, exec (start (rr17bScripts bW)) tr s /\ wrongSize s.
Proof.
  destruct (runs (start (rr17bScripts bW)) [] [0; 1; 0; 1; 4; 0; 0; 2; 3; 2; 2; 2]%nat) as [[tr s]|] eqn:E; [|by vm_compute in E].
  exists tr, s. split; [by eapply runs_exec; [constructor|exact E]|]. vm_compute in E. injection E as <- <-.
  exists 0%nat, (Chan 0 false), 0%nat, 2, 1. eexists. split; [reflexivity|]. split; [reflexivity|]. done.
Qed.
Lemma rr17b_incomplete : ~ completes (rr17bScripts bW).
Proof. intros H. destruct rr17b_wrong as (tr & s & He & Hw). destruct (H tr s He) as (_ & Hn & _). by apply Hn. Qed.

(** A sender that sends its masks at once lets the first thread of the receiver look up while the second has not inserted. *)
Definition bW2 : rr17b := mkRr17b 2 2 1 2 4 1 2 (fun _ => []).
Definition hasty : list (list ev) := [[Snd (Chan 0 true) 1]].
Lemma rr17b_early : peer false hasty /\ ~ always_before (map (bReceiver bW2) (seq 0 2) ++ hasty) (among 2 isInsert) (among 2 isLookup).
Proof.
  split; [repeat constructor; set_solver|]. intros H.
  destruct (runs (start (map (bReceiver bW2) (seq 0 2) ++ hasty)) [] [0; 1; 0; 0; 0; 2; 0; 0; 1; 1]%nat) as [[tr s]|] eqn:E; [|by vm_compute in E].
  assert (exec (start (map (bReceiver bW2) (seq 0 2) ++ hasty)) tr s) as He by (by eapply runs_exec; [constructor|exact E]).
  vm_compute in E. injection E as <- <-.
  specialize (H _ _ 9%nat 7%nat (1%nat, Act Inserted) (0%nat, Act LookedUp) He eq_refl). cbn in H.
  assert (9 < 7)%nat; [|lia]. apply H; repeat split; cbn; lia.
Qed.

(** RR16: the sender's threads send after the check of the permutation. *)
Lemma rr16_checks P adv : peer true adv ->
  always_before (map (cSender P) (seq 0 (cT P)) ++ cSenderMain P :: adv) (fun e => e.1 = cT P /\ isCheck e.2) (among (cT P) (fun e => e = Act MasksSent)).
Proof.
  intros Hadv. apply (barrier_order _ (Barrier true barA) 1).
  - rewrite map_app, concat_app, app_length. cbn [map concat]. rewrite app_length, (arrivals_peer true barA adv Hadv).
    assert (forall s n, concat (map (sendsOf (Barrier true barA)) (map (cSender P) (seq s n))) = []) as ->; [|done].
    intros s n. revert s. induction n as [|n IH]; intros s; [done|]. cbn [seq map concat]. by rewrite IH.
  - intros u l x e Hl Hx [Hu He]. cbn in Hu, He. subst u. rewrite lookup_app_r in Hl by (by rewrite map_length, seq_length). rewrite map_length, seq_length, Nat.sub_diag in Hl. injection Hl as <-.
    exists 3%nat, 0. split; [|done]. destruct x as [|[|[|[|[|x]]]]]; cbn in Hx; try lia; simplify_eq; try (by destruct He as [(? & ? & ? & ?)|?]).
  - intros v l x f Hl Hx [Hv Hf]. cbn in Hv, Hf. subst f. rewrite map_lookup in Hl by done. injection Hl as <-. exists 1%nat. split; [|done].
    destruct x as [|[|x]]; [done|done|lia].
Qed.

(** Equal shares of the bins. *)
Lemma rr17b_same P : (bT P <> 0)%nat -> bBins P + N.of_nat (bT P) < 2 ^ 64 -> bBins P * N.of_nat (bT P) < 2 ^ 64 -> (N.of_nat (bT P) | bBins P) -> forall t, (t < bT P)%nat -> bCorrS P t = bCorrR P t.
Proof.
  intros HT H1 H2 Hd t Ht. unfold bCorrS, bCorrR. f_equal. apply (Partition_Proofs.rr17b_split_equal (bBins P) (N.of_nat (bT P)) (N.of_nat t)); [lia|lia|done|done|done].
Qed.
Lemma rr17b_nonempty P : (bT P <> 0)%nat -> bBins P + N.of_nat (bT P) < 2 ^ 64 -> bBins P * N.of_nat (bT P) < 2 ^ 64 -> (N.of_nat (bT P) | bBins P) -> bBins P <> 0 -> bStep P <> 0 ->
  forall t, (t < bT P)%nat -> bCorrS P t <> [].
Proof.
  intros HT H1 H2 Hd Hb Hs t Ht. rewrite (rr17b_same P HT H1 H2 Hd t Ht). unfold bCorrR, rrCorr, piecesOf. destruct Hd as [c Hc].
  assert (evenSplit (bBins P) (N.of_nat (bT P)) (N.of_nat t) = (c * N.of_nat t, c * (N.of_nat t + 1))) as ->.
  { unfold evenSplit, two64. rewrite !N.mod_small by nia. rewrite Hc. f_equal.
    - replace (c * N.of_nat (bT P) * N.of_nat t) with (c * N.of_nat t * N.of_nat (bT P)) by lia. apply N.div_mul. lia.
    - replace (c * N.of_nat (bT P) * (N.of_nat t + 1)) with (c * (N.of_nat t + 1) * N.of_nat (bT P)) by lia. apply N.div_mul. lia. }
  cbn [fst snd]. assert (c <> 0) by (intros ->; lia).
  replace (c * (N.of_nat t + 1) - c * N.of_nat t) with c by lia. destruct (N.to_nat c) as [|f] eqn:E; [lia|]. cbn [pieces].
  destruct (N.ltb_spec (c * N.of_nat t) (c * (N.of_nat t + 1))); [done|lia].
Qed.

(** A schedule: always the first thread that can go on. *)
Fixpoint firstReady (l : list (queue * N)) (ts : list (list ev)) : option nat :=
  match ts with
  | [] => None
  | (e :: _) :: ts' => if decide (enabled l e) then Some 0%nat else option_map S (firstReady l ts')
  | [] :: ts' => option_map S (firstReady l ts')
  end.
Fixpoint greedy (fuel : nat) (s : state) (tr : list (nat * ev)) : option (list (nat * ev) * state) :=
  match fuel with
  | O => Some (tr, s)
  | S f => match firstReady (sentLog s) (todo s) with
           | Some i => match runs s tr [i] with Some (tr', s') => greedy f s' tr' | None => None end
           | None => Some (tr, s)
           end
  end.
Lemma greedy_exec fuel s0 s tr tr' s' : exec s0 tr s -> greedy fuel s tr = Some (tr', s') -> exec s0 tr' s'.
Proof.
  revert s tr. induction fuel as [|f IH]; intros s tr He H; cbn [greedy] in H; [by injection H as <- <-|].
  destruct (firstReady (sentLog s) (todo s)) as [i|]; [|by injection H as <- <-]. destruct (runs s tr [i]) as [[tr1 s1]|] eqn:E; [|done].
  eapply IH; [|exact H]. by eapply runs_exec.
Qed.
(** The trace of that schedule, if it ends with all threads finished. *)
Definition wholeRun (scripts : list (list ev)) : option (list (nat * ev)) :=
  match greedy (length (concat scripts)) (start scripts) [] with
  | Some (tr, s) => if forallb (fun l => match l with [] => true | _ => false end) (todo s) then Some tr else None
  | None => None
  end.
