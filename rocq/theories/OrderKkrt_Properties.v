(** Property theorems about the places of the masks of KKRT (C150). *)
From Verif Require Import Base Kkrt_Model Kkrt_Spec Order_Spec OrderKkrt_Spec Order_Proofs OrderKkrt_Proofs.
From Verif Require Kkrt_Properties.

(** * C150 *)

(** Two sets of the sender with the same common items: relabelling the permutation gives messages that look alike. *)
Theorem C150_hidden F enc seed ms nb R S S' : 0 < nb -> nb < 2 ^ 64 - 1 -> sameCommon R S S' -> (0 < length S)%nat ->
  noFalseMatch F (enc seed) nb ms R (S ++ S') ->
  exists f, relabels (length S) f /\
    forall junk junk' pm iv iv' sched sched' g g' msgs msgs',
      junkHarmless F (enc seed) junk nb ms R -> junkHarmless F (enc seed) junk' nb ms R ->
      permutationOf (length S) pm iv -> permutationOf (length S) (map f pm) iv' ->
      senderInput F enc seed junk ms nb pm iv (length S) S sched = Done (Some (g, Sent msgs)) ->
      senderInput F enc seed junk' ms nb (map f pm) iv' (length S') S' sched' = Done (Some (g', Sent msgs')) ->
      looksAlike (recognises F (enc seed) nb ms R) (concat msgs) (concat msgs').
Proof. exact (kkrt_hidden F enc seed ms nb R S S'). Qed.
Print Assumptions C150_hidden.
(** Relabelling is a permutation of the permutations. *)
Theorem C150_relabel n h : relabels n h -> permutesPerms n (map h).
Proof. exact (relabel_permutes n h). Qed.
Print Assumptions C150_relabel.
(** Each permutation comes from exactly one sequence of residues: uniform residues give a uniform permutation. *)
Theorem C150_uniform n pm : N.of_nat n < 2 ^ 32 -> pm ≡ₚ seq 0 n ->
  exists js, length js = n /\ (forall i j, js !! i = Some j -> (j < n - i)%nat) /\
    forall rnd, (exists iv, drawPermutation n rnd = Done (Some (pm, iv))) <->
      (forall i j, js !! i = Some j -> rnd i mod N.of_nat (n - i) = N.of_nat j).
Proof. exact (draw_uniform n pm). Qed.
Print Assumptions C150_uniform.

Definition exS' : list N := [65; 1; 2; 14; 4; 5; 6; 92; 98; 99].
Example C150_example :
  sameCommon Kkrt_Properties.exR Kkrt_Properties.exS exS' /\
  noFalseMatch Kkrt_Properties.exF (Kkrt_Properties.exEnc 5) 11 10 Kkrt_Properties.exR (Kkrt_Properties.exS ++ exS') /\
  (exists g msgs, senderInput Kkrt_Properties.exF Kkrt_Properties.exEnc 5 Kkrt_Properties.exJunk 10 11 Kkrt_Properties.exPm Kkrt_Properties.exIv 10 exS' Kkrt_Properties.exSched = Done (Some (g, Sent msgs))) /\
  exists js : list N, drawPermutation 10 (fun i => default 0 (js !! i)) = Done (Some (Kkrt_Properties.exPm, Kkrt_Properties.exIv)).
Proof.
  assert (forall b x, b < 11 -> x < 100 -> Kkrt_Properties.exF b x mod 256 ^ 10 = b * 2 ^ 40 + x + 1) as HF.
  { intros b x ? ?. unfold Kkrt_Properties.exF. apply N.mod_small. change (256 ^ 10) with 1208925819614629174706176. change (2 ^ 40) with 1099511627776. lia. }
  assert (forall x, x ∈ exS' -> x < 100) as Hs.
  { intros x Hx. assert (Forall (fun x => x < 100) exS') as Fa by (repeat constructor). rewrite Forall_forall in Fa. by apply Fa. }
  split; [|split; [|split]].
  - split; [apply (bool_decide_unpack _); vm_compute; done|]. split; [apply (bool_decide_unpack _); vm_compute; done|]. split; [done|].
    assert (Forall (fun x => x ∈ Kkrt_Properties.exS <-> x ∈ exS') Kkrt_Properties.exR) as Fa by (apply (bool_decide_unpack _); vm_compute; done).
    by rewrite Forall_forall in Fa.
  - intros x y b b' Rx Sy Cx Cy E. apply Kkrt_Properties.exBin in Cx, Cy.
    assert (x < 100) by (apply Kkrt_Properties.exSmall, elem_of_app; auto).
    assert (y < 100) by (apply elem_of_app in Sy as [Sy|Sy]; [apply Kkrt_Properties.exSmall, elem_of_app; auto|auto]).
    rewrite !HF in E by done. change (2 ^ 40) with 1099511627776 in E. lia.
  - eexists _, _. vm_compute. reflexivity.
  - exists [3; 2; 1; 6; 4; 4; 2; 0; 1; 0]. vm_compute. reflexivity.
Qed.
