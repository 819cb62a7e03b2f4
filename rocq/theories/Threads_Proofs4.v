(** Order of checks and masks, insertions and lookups. *)
From stdpp Require Import sorting sets.
From Verif Require Import Base Partition_Model Sched_Model Sched_Spec Sched_Proofs Sched_Proofs2 Threads_Model Threads_Proofs Threads_Proofs2.

Lemma talk_elem me c j m e : e ∈ talk me c j m -> (exists k, e = Snd (Chan c me) k) \/ exists j' k, e = Get (Chan c (negb me)) j' k.
Proof.
  revert j. induction m as [|[d k] m IH]; intros j H; [by apply elem_of_nil in H|]. cbn in H. destruct (Bool.eqb d me) eqn:E.
  - apply Bool.eqb_prop in E as ->. apply elem_of_cons in H as [->|H]; [by left; eauto|by eapply IH].
  - assert (d = negb me) as -> by (by destruct d, me). apply elem_of_cons in H as [->|H]; [by right; eauto|by eapply IH].
Qed.
Lemma sendsOf_elem q k l : k ∈ sendsOf q l -> Snd q k ∈ l.
Proof.
  intros H. apply elem_of_list_omap in H as (e & He & H). destruct e as [q' k'| | |]; try done. destruct (decide (q' = q)) as [->|]; [|done]. by injection H as ->.
Qed.
Lemma sendsOf_none q l : (forall k, Snd q k ∉ l) -> sendsOf q l = [].
Proof. intros H. apply elem_of_nil_inv. intros k Hk. apply sendsOf_elem in Hk. by eapply H. Qed.
Lemma talk_sendsOf p b me c j m : sendsOf (Barrier p b) (talk me c j m) = [].
Proof. apply sendsOf_none. intros k H. by apply talk_elem in H as [(? & H)|(? & ? & H)]. Qed.
Lemma sends_sendsOf p b t d l : sendsOf (Barrier p b) (sends (Chan t d) l) = [].
Proof. rewrite sendsOf_sends. by rewrite decide_False. Qed.

Lemma arrivals_T q (f : nat -> list ev) s T : (forall t, length (sendsOf q (f t)) = 1%nat) -> length (concat (map (sendsOf q) (map f (seq s T)))) = T.
Proof. intros H. revert s. induction T as [|T IH]; intros s; [done|]. cbn [seq map concat]. rewrite app_length, H, IH. done. Qed.
Lemma arrivals_peer p b adv : peer p adv -> concat (map (sendsOf (Barrier p b)) adv) = [].
Proof. induction 1 as [|l adv Hl _ IH]; [done|]. cbn [map concat]. rewrite IH, app_nil_r. apply sendsOf_none. apply Hl. Qed.

(** One barrier in the middle of each of the first [T] scripts. *)
Lemma order_in_pairs T (f pre post : nat -> list ev) adv p b (E F : ev -> Prop) :
  (forall t, f t = pre t ++ barrier p b T ++ post t) ->
  (forall t, sendsOf (Barrier p b) (pre t) = []) -> (forall t, sendsOf (Barrier p b) (post t) = []) ->
  peer p adv -> (forall n, ~ E (Wai (Barrier p b) n)) -> (forall k, ~ E (Snd (Barrier p b) k)) -> (forall n, ~ F (Wai (Barrier p b) n)) -> (forall k, ~ F (Snd (Barrier p b) k)) ->
  (forall t e, e ∈ post t -> ~ E e) -> (forall t e, e ∈ pre t -> ~ F e) ->
  always_before (map f (seq 0 T) ++ adv) (among T E) (among T F).
Proof.
  intros Hf Hpre Hpost Hadv HEw HEs HFw HFs HE HF. apply (barrier_order _ (Barrier p b) T).
  - rewrite map_app, concat_app, (arrivals_peer p b adv Hadv), app_nil_r. apply arrivals_T. intros t. rewrite Hf, !sendsOf_app, Hpre, Hpost. unfold barrier. rewrite sendsOf_snd, decide_True by done. done.
  - intros u l x e Hl Hx [Hu He]. cbn in Hu, He. rewrite lookup_app_l in Hl by (by rewrite map_length, seq_length). apply list_lookup_fmap_inv in Hl as (t & -> & Ht).
    rewrite Hf in Hx |- *. exists (length (pre t)), 0. split; [|by rewrite lookup_app_r, Nat.sub_diag].
    apply lookup_app_Some in Hx as [Hx|[Hge Hx]]; [by apply lookup_lt_Some in Hx|]. exfalso.
    apply lookup_app_Some in Hx as [Hx|[_ Hx]].
    + apply elem_of_list_lookup_2 in Hx. unfold barrier in Hx. apply elem_of_cons in Hx as [->|Hx]; [by eapply HEs|]. apply elem_of_list_singleton in Hx as ->. by eapply HEw.
    + apply elem_of_list_lookup_2 in Hx. by eapply HE.
  - intros u l x e Hl Hx [Hu He]. cbn in Hu, He. rewrite lookup_app_l in Hl by (by rewrite map_length, seq_length). apply list_lookup_fmap_inv in Hl as (t & -> & Ht).
    rewrite Hf in Hx |- *. exists (S (length (pre t))). split; [|rewrite lookup_app_r, Nat.sub_succ_l, Nat.sub_diag by lia; done].
    apply lookup_app_Some in Hx as [Hx|[Hge Hx]]; [apply elem_of_list_lookup_2 in Hx; exfalso; by eapply HF|].
    apply lookup_app_Some in Hx as [Hx|[Hge' Hx]].
    + apply elem_of_list_lookup_2 in Hx. unfold barrier in Hx. apply elem_of_cons in Hx as [->|Hx]; [exfalso; by eapply HFs|]. apply elem_of_list_singleton in Hx as ->. exfalso. by eapply HFw.
    + cbn in Hge'. lia.
Qed.

(** Which events are in a part of a script. *)
Ltac parts2 H :=
  match type of H with
  | _ ∈ [] => by apply elem_of_nil in H
  | _ ∈ _ :: _ => apply elem_of_cons in H as [H|H]; [subst|parts2 H]
  | _ ∈ _ ++ _ => apply elem_of_app in H as [H|H]; parts2 H
  | _ ∈ sends _ _ => let k := fresh "k" in apply sends_elem in H as (k & ->)
  | _ ∈ gets _ _ _ => let x := fresh "x" in let k := fresh "k" in apply gets_elem in H as (x & k & -> & _)
  | _ ∈ talk _ _ _ _ => let k := fresh "k" in let j := fresh "j" in apply talk_elem in H as [(k & ->)|(j & k & ->)]
  | _ => idtac
  end.
Ltac kill := let X := fresh in intros X; first [done | by destruct X as [(? & ? & ? & X)|X]].
Ltac order_tac t e H := first [intros t; repeat first [rewrite sendsOf_app | rewrite sendsOf_snd, decide_False by done | rewrite sendsOf_get | rewrite sendsOf_wai | rewrite sendsOf_act | rewrite sends_sendsOf | rewrite sendsOf_gets | rewrite talk_sendsOf]; done | intros t; kill | intros t e H; parts2 H; kill].

Lemma rr17a_checks P adv : peer true adv -> always_before (map (aSender P) (seq 0 (aT P)) ++ adv) (among (aT P) isCheck) (among (aT P) isMask).
Proof.
  intros Hadv. eapply (order_in_pairs _ _
    (fun t => Act Inserted :: barrier true barA (aT P) ++ sends (Chan t true) (aCorr P t) ++ [Wai (Barrier true permB) 1] ++ gets (Chan t false) 0 (aCorr P t) ++
      talk true t (length (aCorr P t)) (aChk1 P t) ++ talk true t (length (aCorr P t) + heard true (aChk1 P t)) (aChk2 P t) ++ [Act Checked])
    (fun t => Act MasksSent :: sends (Chan t true) (aMasks P t) ++ [done true]) _ true barB); [| | |exact Hadv|..]; cbn [barrier app].
  { intros t. unfold aSender, barrier. repeat first [progress cbn [app] | rewrite <- app_assoc]. done. }
  all: order_tac t e H.
Qed.
Lemma rr17b_checks P adv : peer true adv -> always_before (map (bSender P) (seq 0 (bT P)) ++ adv) (among (bT P) isCheck) (among (bT P) isMask).
Proof.
  intros Hadv. eapply (order_in_pairs _ _
    (fun t => Act Inserted :: barrier true barA (bT P) ++ [Wai (Barrier true permB) 1] ++ gets (Chan t false) 0 (bCorrS P t) ++ talk true t (length (bCorrS P t)) (bChk P t) ++ [Act Checked])
    (fun t => Act MasksSent :: sends (Chan t true) (bMasks P t) ++ [done true]) _ true barB); [| | |exact Hadv|..]; cbn [barrier app].
  { intros t. unfold bSender, barrier. repeat first [progress cbn [app] | rewrite <- app_assoc]. done. }
  all: order_tac t e H.
Qed.
Lemma grr18_checks P adv : peer true adv -> always_before (map (gSender P) (seq 0 (gT P)) ++ adv) (among (gT P) isCheck) (among (gT P) isMask).
Proof.
  intros Hadv. eapply (order_in_pairs _ _
    (fun t => Act Inserted :: barrier true barA (gT P) ++ sends (Chan t true) (gHead P t) ++ sends (Chan t true) (gCorr P (gLoadsS P) t) ++ gets (Chan t false) 0 (gHead P t) ++
      barrier true barC (gT P) ++ Snd (Chan t true) 8 :: gets (Chan t false) 2 (gCorr P (gLoadsR P) t) ++
      [Snd (Chan t true) (gFin P true t); Get (Chan t false) (2 + length (gCorr P (gLoadsR P) t)) (gFin P false t);
       Snd (Chan t true) (gChal P true t); Get (Chan t false) (3 + length (gCorr P (gLoadsR P) t)) (gChal P false t);
       Get (Chan t false) (4 + length (gCorr P (gLoadsR P) t)) (gProof P false t); Act Checked])
    (fun t => Act MasksSent :: sends (Chan t true) (gMasks P t) ++ [Snd (Chan t true) (gProof P true t); done true]) _ true barB); [| | |exact Hadv|..]; cbn [barrier app].
  { intros t. unfold gSender, barrier. repeat first [progress cbn [app] | rewrite <- app_assoc]. done. }
  all: order_tac t e H.
Qed.
(** Insertions before lookups, whatever the sender does. *)
Lemma rr17a_lookups P adv : peer false adv -> always_before (map (aReceiver P) (seq 0 (aT P)) ++ adv) (among (aT P) isInsert) (among (aT P) isLookup).
Proof.
  intros Hadv. eapply (order_in_pairs _ _
    (fun t => barrier false barA (aT P) ++ sends (Chan t false) (aCorr P t) ++ gets (Chan t true) 0 (aCorr P t) ++
      talk false t (length (aCorr P t)) (aChk1 P t) ++ talk false t (length (aCorr P t) + heard false (aChk1 P t)) (aChk2 P t) ++ [Act Inserted])
    (fun t => Act LookedUp :: gets (Chan t true) (length (aCorr P t) + heard false (aChk1 P t) + heard false (aChk2 P t)) (aMasks P t) ++ [done false]) _ false barB); [| | |exact Hadv|..]; cbn [barrier app].
  { intros t. unfold aReceiver, barrier. repeat first [progress cbn [app] | rewrite <- app_assoc]. done. }
  all: order_tac t e H.
Qed.
Lemma grr18_lookups P adv : peer false adv -> always_before (map (gReceiver P) (seq 0 (gT P)) ++ adv) (among (gT P) isInsert) (among (gT P) isLookup).
Proof.
  intros Hadv. eapply (order_in_pairs _ _
    (fun t => barrier false barA (gT P) ++ Get (Chan t true) 1 ((gRange P t).2 - (gRange P t).1) :: sends (Chan t false) (gHead P t) ++ sends (Chan t false) (gCorr P (gLoadsR P) t) ++
      Get (Chan t true) 0 8 :: gets (Chan t true) 2 (gCorr P (gLoadsS P) t) ++
      [Snd (Chan t false) (gFin P false t); Get (Chan t true) (3 + length (gCorr P (gLoadsS P) t)) (gFin P true t);
       Snd (Chan t false) (gChal P false t); Get (Chan t true) (4 + length (gCorr P (gLoadsS P) t)) (gChal P true t);
       Snd (Chan t false) (gProof P false t); Act Inserted])
    (fun t => Get (Chan t true) (2 + length (gCorr P (gLoadsS P) t)) 8 :: Act LookedUp :: gets (Chan t true) (5 + length (gCorr P (gLoadsS P) t)) (gMasks P t) ++
      [Get (Chan t true) (5 + length (gCorr P (gLoadsS P) t) + length (gMasks P t)) (gProof P true t); done false]) _ false barB); [| | |exact Hadv|..]; cbn [barrier app].
  { intros t. unfold gReceiver, barrier. repeat first [progress cbn [app] | rewrite <- app_assoc]. done. }
  all: order_tac t e H.
Qed.
(** RR16: the permutation leaves the receiver after all threads have set their filter bits. *)
Lemma rr16_hashed P adv : peer false adv -> always_before (map (cReceiver P) (seq 0 (cT P)) ++ adv) (among (cT P) isHash) (among (cT P) (isSend (Chan 0 false))).
Proof.
  intros Hadv. eapply (order_in_pairs _ _ (fun t => [Act Hashed])
    (fun t => (if (t =? 0)%nat then [Snd (Chan 0 false) (cBf P); Snd (Barrier false permB) 0] else [Wai (Barrier false permB) 1]) ++
      (if (t =? cFirst P)%nat then [Wai (Barrier false barB) (cT P - 1); Act Inserted; Snd (Barrier false barC) 0] else [Act Inserted; Snd (Barrier false barB) 0; Wai (Barrier false barC) 1]) ++
      [Get (Chan t true) 0 (cMasks P t); Act LookedUp; done false]) _ false barA); [| | |exact Hadv|..]; cbn [barrier app].
  { intros t. done. }
  { intros t. done. }
  { intros t. destruct (t =? 0)%nat, (t =? cFirst P)%nat; done. }
  5: { intros t e H. destruct (t =? 0)%nat, (t =? cFirst P)%nat; cbn [app] in H; parts2 H; kill. }
  all: try (intros t e H; parts2 H; by intros (? & ?)). all: try (intros t (? & ?); done). all: order_tac t e H.
Qed.
