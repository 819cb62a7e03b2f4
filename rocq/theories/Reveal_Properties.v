(** Property theorems: the sender's messages show the common items and nothing else (C168). *)
From Verif Require Import Base Kkrt_Model Kkrt_Spec Order_Spec OrderKkrt_Spec Reveal_Spec Reveal_Proofs.
From Verif Require Kkrt_Properties OrderKkrt_Properties.

(** * C168 *)

(** KKRT. [P]: the points where the receiver evaluates the OPRF; each one that could decide a mask belongs to an item of its set. Two
    sets of the sender with the same common items: with the sender's random numbers renamed away from [P] and its permutation
    relabelled, the messages are the same. *)
Theorem C168_only_common enc seed ms nb (P : list (N * N)) R S S' : 0 < nb -> nb < 2 ^ 64 - 1 -> (0 < length S)%nat ->
  (forall b y, (b, y) ∈ P -> candidate (enc seed) nb y b -> y ∈ R) -> sameCommon R S S' ->
  exists f s, relabels (length S) f /\ renaming s /\ (forall b y, (b, y) ∈ P -> s (Oprf b y) = Oprf b y) /\
    forall w pm iv iv' sched sched' g g' msgs msgs',
      permutationOf (length S) pm iv -> permutationOf (length S') (map f pm) iv' ->
      senderInput (oprfOf w) enc seed (drawnOf w) ms nb pm iv (length S) S sched = Done (Some (g, Sent msgs)) ->
      senderInput (oprfOf (fun a => w (s a))) enc seed (drawnOf (fun a => w (s a))) ms nb (map f pm) iv' (length S') S' sched' = Done (Some (g', Sent msgs')) ->
      msgs' = msgs.
Proof. exact (kkrt_reveals enc seed ms nb P R S S'). Qed.
Print Assumptions C168_only_common.

(** The receiver evaluates the OPRF of every bin at all its items. Both runs send. *)
Definition exPoints : list (N * N) := concat (map (fun x => map (fun b => (N.of_nat b, x)) (seq 0 11)) Kkrt_Properties.exR).
Example C168_example :
  sameCommon Kkrt_Properties.exR Kkrt_Properties.exS OrderKkrt_Properties.exS' /\
  (forall b y, (b, y) ∈ exPoints -> candidate (Kkrt_Properties.exEnc 5) 11 y b -> y ∈ Kkrt_Properties.exR) /\
  (exists x, x ∈ Kkrt_Properties.exR /\ x ∈ Kkrt_Properties.exS) /\ (exists x, x ∈ Kkrt_Properties.exS /\ x ∉ OrderKkrt_Properties.exS') /\
  forall w S, S = Kkrt_Properties.exS \/ S = OrderKkrt_Properties.exS' ->
    exists g msgs, senderInput (oprfOf w) Kkrt_Properties.exEnc 5 (drawnOf w) 10 11 Kkrt_Properties.exPm Kkrt_Properties.exIv 10 S Kkrt_Properties.exSched = Done (Some (g, Sent msgs)).
Proof.
  split; [apply OrderKkrt_Properties.C150_example|]. split.
  { intros b y H _. unfold exPoints in H. apply elem_of_list_In, in_concat in H as (l & Hl & Hin). apply in_map_iff in Hl as (x & <- & Hx). apply in_map_iff in Hin as (k & [= _ <-] & _). by apply elem_of_list_In. }
  split; [exists 92; split; apply (bool_decide_unpack _); vm_compute; done|].
  split; [exists 35; split; apply (bool_decide_unpack _); vm_compute; done|].
  intros w S [->| ->]; eexists _, _; vm_compute; reflexivity.
Qed.
