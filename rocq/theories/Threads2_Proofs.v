(** Every schedule of ECDH and DCW completes. *)
From stdpp Require Import sorting sets.
From Verif Require Import Base Partition_Model Sched_Model Sched_Spec Sched_Proofs Sched_Proofs2 Sched_Proofs3 Threads_Model Threads_Proofs Threads_Proofs2 Threads_Proofs4 Threads2_Model.

(** ** ECDH *)

Section ecdh.
Variable P : ecdh.
Hypothesis same : eNS P = eNR P.
Local Notation pts t := (ePt P * eSub P (eNS P) t).
Local Notation masks t := (eMask (eNS P) * eSub P (eNS P) t).
Definition eSb (t : nat) : list (nat * list (rank * ev)) :=
  [seg 0 [Snd (Chan t true) (pts t)]; seg 1 [Get (Chan t false) 0 (pts t); Snd (Barrier true barA) 0]; seg 2 [Wai (Barrier true barA) (eT P); Act MasksSent; Snd (Chan t true) (masks t)];
   seg 3 [done true]].
Definition eRb (t : nat) : list (nat * list (rank * ev)) :=
  [seg 0 [Snd (Chan t false) (pts t)]; seg 1 [Get (Chan t true) 0 (pts t); Act Inserted; Snd (Barrier false barA) 0]; seg 2 [Wai (Barrier false barA) (eT P)];
   seg 3 [Get (Chan t true) 1 (masks t); Act LookedUp]; seg 4 [done false]].
Definition eX : list (list (rank * ev)) := [flat [seg 5 (joinMain true (eT P))]; flat [seg 5 (joinMain false (eT P))]].
Definition eMS (t : nat) : list (rank * N) := [((0, 0)%nat, pts t); ((2, 0)%nat, masks t)].
Definition eMR (t : nat) : list (rank * N) := [((0, 0)%nat, pts t)].
Lemma e_scripts : map evs (all (eT P) (fun t => flat (eSb t)) (fun t => flat (eRb t)) eX) = ecdhScripts P.
Proof.
  unfold all, ecdhScripts. rewrite !map_app, !map_map. apply (f_equal2 app); [|apply (f_equal2 app); [|done]].
  - apply map_ext. intros t. rewrite flat_evs. unfold eSb. cbn [map concat snd]. rewrite !seg_evs. done.
  - apply map_ext. intros t. rewrite flat_evs. unfold eRb. cbn [map concat snd]. rewrite !seg_evs. unfold eReceiver. rewrite <- same. done.
Qed.
Lemma ecdh_completes : completes (ecdhScripts P).
Proof.
  rewrite <- e_scripts. apply (pairs_complete _ _ _ _ eMS eMR).
  - intros t. sorted_tac.
  - intros t. sorted_tac.
  - repeat (apply Forall_cons_2; [sorted_tac|]); apply Forall_nil_2.
  - intros t v d. unfold eSb, eMS, done. sends_tac t v d.
  - intros t v d. unfold eRb, eMR, done. sends_tac t v d.
  - repeat constructor; intros v d; done.
  - intros t r q j k Ht H. unfold eSb, done in H. parts H. injection H as -> -> ->. exists t, false, (0, 0)%nat. split_and!; [done|done|done|rl].
  - intros t r q j k Ht H. unfold eRb, done in H. parts H; injection H as -> -> ->.
    + exists t, true, (0, 0)%nat. split_and!; [done|done|done|rl].
    + exists t, true, (2, 0)%nat. split_and!; [done|done|done|rl].
  - repeat (apply Forall_cons_2; [intros r q j k H; unfold joinMain in H; parts H|]); apply Forall_nil_2.
  - intros t r q n Ht H. unfold eSb, done in H. parts H. injection H as -> ->. apply arrived_f; [done|]. intros t'. do 2 eexists. split; [eapply (flat_in _ 1 _ _ 1); reflexivity|rl].
  - intros t r q n Ht H. unfold eRb, done in H. parts H. injection H as -> ->. apply arrived_g; [done|]. intros t'. do 2 eexists. split; [eapply (flat_in _ 1 _ _ 2); reflexivity|rl].
  - apply Forall_cons_2; [|apply Forall_cons_2; [|apply Forall_nil_2]]; intros r q n H; unfold joinMain in H; parts H; injection H as -> ->.
    + apply arrived_f; [done|]. intros t'. do 2 eexists. split; [eapply (flat_in _ 3 _ _ 0); reflexivity|rl].
    + apply arrived_g; [done|]. intros t'. do 2 eexists. split; [eapply (flat_in _ 4 _ _ 0); reflexivity|rl].
Qed.
End ecdh.
Lemma ecdh_lookups P adv : peer false adv -> always_before (map (eReceiver P) (seq 0 (eT P)) ++ adv) (among (eT P) isInsert) (among (eT P) isLookup).
Proof.
  intros Hadv. eapply (order_in_pairs _ _ (fun t => [Snd (Chan t false) (ePt P * eSub P (eNR P) t); Get (Chan t true) 0 (ePt P * eSub P (eNR P) t); Act Inserted])
    (fun t => [Get (Chan t true) 1 (eMask (eNR P) * eSub P (eNR P) t); Act LookedUp; done false]) _ false barA); [| | |exact Hadv|..]; cbn [barrier app].
  { intros t. done. }
  all: unfold done; order_tac t e H.
Qed.
Lemma ecdh_checks P adv : peer true adv -> always_before (map (eSender P) (seq 0 (eT P)) ++ adv) (among (eT P) isCheck) (among (eT P) isMask).
Proof.
  intros Hadv. eapply (order_in_pairs _ _ (fun t => [Snd (Chan t true) (ePt P * eSub P (eNS P) t); Get (Chan t false) 0 (ePt P * eSub P (eNS P) t)])
    (fun t => [Act MasksSent; Snd (Chan t true) (eMask (eNS P) * eSub P (eNS P) t); done true]) _ true barA); [| | |exact Hadv|..]; cbn [barrier app].
  { intros t. done. }
  all: unfold done; order_tac t e H.
Qed.

(** ** DCW *)

Section dcw.
Variables (P : dcw) (n : N).
Local Notation ext i := (wConv P n i).
Definition wTail (me : bool) : list (nat * list (rank * ev)) :=
  if me then [seg 9 [Get (Chan 0 false) (1 + heard true (wBase P) + heard true (ext 0)) (wBits n); Act MasksSent; Snd (Chan 0 true) (16 * n)]]
  else [seg 8 [Snd (Chan 0 false) (wBits n)]; seg 10 [Get (Chan 0 true) (1 + heard false (wBase P) + heard false (ext 0)) (16 * n); Act LookedUp]].
Definition wB (me : bool) (c : nat) : list (nat * list (rank * ev)) :=
  match c with
  | O => [seg 0 [Snd (Chan 0 me) (wSeed P)]; seg 1 [Get (Chan 0 (negb me)) 0 (wSeed P)]; (2%nat, talkR me 0 1 2 0 (wBase P)); seg 3 [Snd (Barrier me wStartB) 0];
          (4%nat, talkR me 0 (1 + heard me (wBase P)) 4 0 (ext 0)); seg 7 [Wai (Barrier me joinB) (wT P - 1)]] ++ wTail me
  | S _ => [seg 4 [Wai (Barrier me wStartB) 1]; (5%nat, talkR me c 0 5 0 (ext c)); seg 6 [done me]]
  end.
Definition wM (me : bool) (c : nat) : list (rank * N) :=
  match c with
  | O => ((0, 0)%nat, wSeed P) :: said me 2 0 (wBase P) ++ said me 4 0 (ext 0) ++ [if me then ((9, 0)%nat, 16 * n) else ((8, 0)%nat, wBits n)]
  | S _ => said me 5 0 (ext c)
  end.
Lemma w_scripts : map evs (all (wT P) (fun t => flat (wB true t)) (fun t => flat (wB false t)) []) = map (wParty true P n) (seq 0 (wT P)) ++ map (wParty false P n) (seq 0 (wT P)).
Proof.
  unfold all. rewrite !map_app, !map_map. cbn [map]. rewrite app_nil_r. f_equal; apply map_ext; intros [|i]; rewrite flat_evs; unfold wB, wTail; cbn [map concat snd app];
    rewrite !seg_evs, !talkR_evs; unfold wParty, wOnline; cbn [app]; rewrite ?app_nil_r, <- ?app_assoc; done.
Qed.
Lemma w_sorted me t : StronglySorted rle (map fst (flat (wB me t))).
Proof. destruct t as [|i]; unfold wB; [destruct me; unfold wTail; cbn [app]; sorted_tac|sorted_tac]. Qed.
Lemma w_sends me t v d : rsends (Chan v d) (flat (wB me t)) = if (Bool.eqb d me && (t =? v)%nat)%bool then wM me t else [].
Proof. destruct t as [|i]; unfold wB, wM, wTail, done; [destruct me; cbn [app]; sends_tac 0%nat v d|destruct me; sends_tac (S i) v d]. Qed.
Lemma w_get me t r q j k : (t < wT P)%nat -> (r, Get q j k) ∈ flat (wB me t) -> met (wT P) (wM true) (wM false) r q j k.
Proof.
  intros Ht H. assert (forall x r', wM (negb me) t !! x = Some (r', k) -> rlt r' r -> q = Chan t (negb me) -> j = x -> met (wT P) (wM true) (wM false) r q j k) as Hm.
  { intros x r' Hx Hlt -> ->. exists t, (negb me), r'. split; [done|]. split; [done|]. split; [by destruct me|done]. }
  assert (forall b, length (said (negb me) 2 0 (wBase P)) = heard me (wBase P) /\ length (said (negb me) 4 0 b) = heard me b) as Hl.
  { intros b. by rewrite !said_heard, !negb_involutive. }
  destruct t as [|i]; unfold wB, done in H.
  - assert ((r, Get q j k) ∈ flat (wTail me) \/ j = 0%nat /\ r = (1, 0)%nat /\ q = Chan 0 (negb me) /\ k = wSeed P \/
      (r, Get q j k) ∈ talkR me 0 1 2 0 (wBase P) \/ (r, Get q j k) ∈ talkR me 0 (1 + heard me (wBase P)) 4 0 (ext 0)) as [H'|[H'|[H'|H']]].
    { unfold flat in H |- *. rewrite map_app, concat_app in H. apply elem_of_app in H as [H|H]; [|by left]. fold (flat [seg 0 [Snd (Chan 0 me) (wSeed P)]; seg 1 [Get (Chan 0 (negb me)) 0 (wSeed P)];
        (2%nat, talkR me 0 1 2 0 (wBase P)); seg 3 [Snd (Barrier me wStartB) 0]; (4%nat, talkR me 0 (1 + heard me (wBase P)) 4 0 (ext 0)); seg 7 [Wai (Barrier me joinB) (wT P - 1)]]) in H.
      right. parts H; [left; by injection H as -> -> ->|by right; left|by right; right]. }
    + unfold wTail in H'. destruct me; parts H'; injection H' as -> -> ->.
      * eapply Hm; [|..|done|reflexivity].
        { cbn [wM Nat.add lookup list_lookup]. eapply nth_tail; [by rewrite (proj1 (Hl [])); reflexivity|].
          eapply (nth_tail _ _ _ 0); [by rewrite (proj2 (Hl _)), Nat.add_0_r|]. reflexivity. }
        rl.
      * eapply Hm; [|..|done|reflexivity].
        { cbn [wM Nat.add lookup list_lookup]. eapply nth_tail; [by rewrite (proj1 (Hl [])); reflexivity|].
          eapply (nth_tail _ _ _ 0); [by rewrite (proj2 (Hl _)), Nat.add_0_r|]. reflexivity. }
        rl.
    + destruct H' as (-> & -> & -> & ->). eapply Hm; [|..|done|done]; [reflexivity|rl].
    + apply talkR_get in H' as (-> & x & r' & H' & -> & L). eapply Hm; [|exact L|done|reflexivity]. cbn [wM Nat.add lookup list_lookup]. by apply nth_head.
    + apply talkR_get in H' as (-> & x & r' & H' & -> & L). eapply Hm; [|exact L|done|reflexivity]. cbn [wM Nat.add lookup list_lookup].
      eapply nth_tail; [by rewrite (proj1 (Hl []))|]. by apply nth_head.
  - parts H. apply talkR_get in H as (-> & x & r' & H & -> & L). by eapply Hm.
Qed.
Lemma w_wait me t r q m : (t < wT P)%nat -> (r, Wai q m) ∈ flat (wB me t) -> (m <= arrived (wT P) (fun t => flat (wB true t)) (fun t => flat (wB false t)) [] r q)%nat.
Proof.
  intros Ht H.
  assert (m <= length (before r (concat (map (rsends q) (map (fun t => flat (wB me t)) (seq 0 (wT P)))))))%nat; [|rewrite arrived_split; destruct me; lia].
  assert (seq 0 (wT P) = 0%nat :: seq 1 (wT P - 1)) as -> by (destruct (wT P); [lia|cbn; by rewrite Nat.sub_0_r]).
  cbn [map concat]. rewrite before_app, app_length.
  destruct t as [|i]; unfold wB, done in H.
  - assert (r = (7, 0)%nat /\ q = Barrier me joinB /\ m = (wT P - 1)%nat) as (-> & -> & ->).
    { unfold wTail in H. destruct me; cbn [app] in H; parts H; try nowait H; by injection H as -> ->. }
    pose proof (many (7, 0)%nat (Barrier me joinB) (fun t => flat (wB me t)) 1 (wT P - 1)) as Hm.
    etransitivity; [apply Hm|lia]. intros t' Ht'. destruct t' as [|i']; [lia|].
    eapply arrives; [eapply (flat_in (wB me (S i')) 2 _ _ 0); reflexivity|rl].
  - parts H; try nowait H. injection H as -> ->. etransitivity; [|apply Nat.le_add_r]. eapply arrives; [eapply (flat_in (wB me 0) 3 _ _ 0); reflexivity|rl].
Qed.
Lemma w_completes : completes (map (wParty true P n) (seq 0 (wT P)) ++ map (wParty false P n) (seq 0 (wT P))).
Proof.
  rewrite <- w_scripts. apply (pairs_complete _ _ _ _ (wM true) (wM false)); try by constructor.
  - intros t. apply w_sorted.
  - intros t. apply w_sorted.
  - intros t v d. rewrite w_sends. by destruct d.
  - intros t v d. rewrite w_sends. by destruct d.
  - intros t r q j k. apply w_get.
  - intros t r q j k. apply w_get.
  - intros t r q m. apply w_wait.
  - intros t r q m. apply w_wait.
Qed.
End dcw.
Lemma dcw_completes P : wNS P = wNR P -> completes (dcwScripts P).
Proof. intros H. unfold dcwScripts. rewrite <- H. apply w_completes. Qed.
