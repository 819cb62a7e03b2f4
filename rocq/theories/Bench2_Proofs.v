(** Lemmas for Bench2_Properties.v. *)
From Verif Require Import Base Sched_Model Bench_Model.

Lemma elem_flat {A B} (f : A -> list B) (l : list A) (y : B) : y ∈ concat (map f l) <-> exists x, x ∈ l /\ y ∈ f x.
Proof.
  rewrite elem_of_list_In, in_concat. split.
  - intros (z & Hz & Hy). apply in_map_iff in Hz as (x & <- & Hx). exists x. split; by apply elem_of_list_In.
  - intros (x & Hx & Hy). exists (f x). apply elem_of_list_In in Hx, Hy. split; [by apply in_map|done].
Qed.
Lemma elem_loop3 l keep p : p ∈ loop3 l keep <-> lTrials l <> 0%nat /\ pItems p ∈ lItems l /\ pThreads p ∈ lThreads l /\ keep (pThreads p) = true /\ pScaler p = 0 /\ pEps p = 0.
Proof.
  unfold loop3. rewrite elem_flat. setoid_rewrite elem_flat. split.
  - intros (n & Hn & t & Ht & H). destruct (keep t) eqn:K; [|by apply elem_of_nil in H]. apply elem_of_replicate in H as [-> H]. by cbn.
  - intros (H0 & Hn & Ht & K & Hs & He). exists (pItems p). split; [done|]. exists (pThreads p). split; [done|]. rewrite K. apply elem_of_replicate.
    split; [|done]. destruct p; cbn in *. by subst.
Qed.
Lemma elem_loop4 l e p : p ∈ loop4 l e <-> lTrials l <> 0%nat /\ pItems p ∈ lItems l /\ pThreads p ∈ lThreads l /\ pScaler p ∈ lScalers l /\ pEps p = e.
Proof.
  unfold loop4. rewrite elem_flat. setoid_rewrite elem_flat. setoid_rewrite elem_flat. split.
  - intros (n & Hn & t & Ht & s & Hs & H). apply elem_of_replicate in H as [-> H]. by cbn.
  - intros (H0 & Hn & Ht & Hs & He). exists (pItems p). split; [done|]. exists (pThreads p). split; [done|]. exists (pScaler p). split; [done|]. apply elem_of_replicate.
    split; [|done]. destruct p; cbn in *. by subst.
Qed.
Lemma elem_passes b sender l p : p ∈ passes b sender l <->
  lTrials l <> 0%nat /\ pItems p ∈ lItems l /\ pThreads p ∈ lThreads l /\ (b = DcwR -> pThreads p = 1%nat) /\
  (match b with Rr17a | Rr17aSM | Rr17b | Grr18 => pScaler p ∈ lScalers l | _ => pScaler p = 0 end) /\
  (match b with Grr18 => pEps p ∈ lEps l | _ => pEps p = 0 end).
Proof.
  destruct b; cbn [passes]; rewrite ?elem_loop3, ?elem_loop4; try (intuition congruence).
  - rewrite Nat.eqb_eq. intuition.
  - rewrite elem_flat. setoid_rewrite elem_loop4. split.
    + intros (e & He & H0 & H1 & H2 & H3 & H4). subst e. repeat split; try done.
    + intros (H0 & H1 & H2 & _ & H3 & H4). by exists (pEps p).
Qed.
Lemma length_flat {A B} (f : A -> list B) (l : list A) k : (forall x, length (f x) = k) -> length (concat (map f l)) = (length l * k)%nat.
Proof. intros H. induction l as [|x l IH]; [done|]. cbn. rewrite app_length, IH, H. lia. Qed.
Lemma length_passes b sender l : b <> DcwR ->
  length (passes b sender l) = (length (lItems l) * (length (lThreads l) *
    (match b with Rr17a | Rr17aSM | Rr17b | Grr18 => length (lScalers l) | _ => 1 end * (match b with Grr18 => length (lEps l) | _ => 1 end * lTrials l))))%nat.
Proof.
  intros Hb.
  assert (length (loop3 l (fun _ => true)) = (length (lItems l) * (length (lThreads l) * lTrials l))%nat) as L3.
  { unfold loop3. apply length_flat. intros n. apply length_flat. intros t. apply replicate_length. }
  assert (forall e, length (loop4 l e) = (length (lItems l) * (length (lThreads l) * (length (lScalers l) * lTrials l)))%nat) as L4.
  { intros e. unfold loop4. apply length_flat. intros n. apply length_flat. intros t. apply length_flat. intros s. apply replicate_length. }
  destruct b; cbn [passes]; try done; rewrite ?L3, ?L4; try lia. rewrite (length_flat _ _ _ L4). lia.
Qed.
