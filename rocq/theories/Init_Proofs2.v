(** Every schedule of the set-up phase completes. *)
From stdpp Require Import sorting sets.
From Verif Require Import Base Partition_Model Sched_Model Sched_Spec Sched_Proofs Sched_Proofs2 Threads_Model Threads_Proofs Threads_Proofs2 Init_Model Init_Spec.

Section init.
Variables (P : initP) (cnt : nat -> N).
Local Notation ext i := (iExt P i (cnt i)).
Definition inB (me : bool) (c : nat) : list (nat * list (rank * ev)) :=
  match c with
  | O => [seg 0 [Snd (Chan 0 me) (iComm P)]; seg 1 [Get (Chan 0 (negb me)) 0 (iComm P); Snd (Chan 0 me) (iSeed P)]; seg 2 [Get (Chan 0 (negb me)) 1 (iSeed P)];
          (3%nat, talkR me 0 2 3 0 (iBase P)); seg 4 [Snd (Barrier me startB) 0]; (5%nat, talkR me 0 (2 + heard me (iBase P)) 5 0 (ext (iT P - 1)%nat));
          seg 8 [Wai (Barrier me joinB) (iT P - 1)]]
  | S i => [seg 5 [Wai (Barrier me startB) 1]; (6%nat, talkR me (S i) 0 6 0 (ext i)); seg 7 [done me]]
  end.
Definition inM (me : bool) (c : nat) : list (rank * N) :=
  match c with
  | O => ((0, 0)%nat, iComm P) :: ((1, 0)%nat, iSeed P) :: said me 3 0 (iBase P) ++ said me 5 0 (ext (iT P - 1)%nat)
  | S i => said me 6 0 (ext i)
  end.
Lemma in_scripts : map evs (all (iT P) (fun t => flat (inB true t)) (fun t => flat (inB false t)) []) =
  map (initOn true P cnt) (seq 0 (iT P)) ++ map (initOn false P cnt) (seq 0 (iT P)).
Proof.
  unfold all. rewrite !map_app, !map_map. cbn [map]. rewrite app_nil_r. f_equal; apply map_ext; intros [|i]; rewrite flat_evs; unfold inB; cbn [map concat snd];
    rewrite !seg_evs, !talkR_evs; unfold initOn, toss; cbn [app]; rewrite ?app_nil_r, <- ?app_assoc; done.
Qed.
Lemma in_sorted me t : StronglySorted rle (map fst (flat (inB me t))).
Proof. destruct t as [|i]; unfold inB; sorted_tac. Qed.
Lemma in_sends me t v d : rsends (Chan v d) (flat (inB me t)) = if (Bool.eqb d me && (t =? v)%nat)%bool then inM me t else [].
Proof. destruct t as [|i]; unfold inB, inM, done; [destruct me; sends_tac 0%nat v d|destruct me; sends_tac (S i) v d]. Qed.
Lemma in_get me t r q j k : (t < iT P)%nat -> (r, Get q j k) ∈ flat (inB me t) -> met (iT P) (inM true) (inM false) r q j k.
Proof.
  intros Ht H. assert (forall x r', inM (negb me) t !! x = Some (r', k) -> rlt r' r -> q = Chan t (negb me) -> j = x -> met (iT P) (inM true) (inM false) r q j k) as Hm.
  { intros x r' Hx Hlt -> ->. exists t, (negb me), r'. split; [done|]. split; [done|]. split; [by destruct me|done]. }
  destruct t as [|i]; unfold inB, done in H; parts H.
  - injection H as -> -> ->. eapply Hm; [|..|done|done]; [reflexivity|rl].
  - injection H as -> -> ->. eapply Hm; [|..|done|done]; [reflexivity|rl].
  - apply talkR_get in H as (-> & x & r' & H & -> & L). eapply Hm; [|exact L|done|reflexivity]. cbn [inM Nat.add lookup list_lookup]. by apply nth_head.
  - apply talkR_get in H as (-> & x & r' & H & -> & L). eapply Hm; [|exact L|done|reflexivity]. cbn [inM Nat.add lookup list_lookup].
    eapply nth_tail; [|exact H]. by rewrite said_heard, negb_involutive.
  - apply talkR_get in H as (-> & x & r' & H & -> & L). by eapply Hm.
Qed.
Lemma in_wait me t r q n : (t < iT P)%nat -> (r, Wai q n) ∈ flat (inB me t) -> (n <= arrived (iT P) (fun t => flat (inB true t)) (fun t => flat (inB false t)) [] r q)%nat.
Proof.
  intros Ht H.
  assert (n <= length (before r (concat (map (rsends q) (map (fun t => flat (inB me t)) (seq 0 (iT P)))))))%nat; [|rewrite arrived_split; destruct me; lia].
  assert (seq 0 (iT P) = 0%nat :: seq 1 (iT P - 1)) as -> by (destruct (iT P); [lia|cbn; by rewrite Nat.sub_0_r]).
  cbn [map concat]. rewrite before_app, app_length.
  destruct t as [|i]; unfold inB, done in H; parts H; try nowait H.
  - injection H as -> ->. pose proof (many (8, 0)%nat (Barrier me joinB) (fun t => flat (inB me t)) 1 (iT P - 1)) as Hm.
    etransitivity; [apply Hm|lia]. intros t' Ht'. destruct t' as [|i']; [lia|].
    eapply arrives; [eapply (flat_in (inB me (S i')) 2 _ _ 0); reflexivity|rl].
  - injection H as -> ->. etransitivity; [|apply Nat.le_add_r]. eapply arrives; [eapply (flat_in (inB me 0) 4 _ _ 0); reflexivity|rl].
Qed.
Lemma in_completes : completes (map (initOn true P cnt) (seq 0 (iT P)) ++ map (initOn false P cnt) (seq 0 (iT P))).
Proof.
  rewrite <- in_scripts. apply (pairs_complete _ _ _ _ (inM true) (inM false)); try by constructor.
  - intros t. apply in_sorted.
  - intros t. apply in_sorted.
  - intros t v d. rewrite in_sends. by destruct d.
  - intros t v d. rewrite in_sends. by destruct d.
  - intros t r q j k. apply in_get.
  - intros t r q j k. apply in_get.
  - intros t r q n. apply in_wait.
  - intros t r q n. apply in_wait.
Qed.
End init.
Lemma init_completes P : (forall i, (i < iT P)%nat -> iCntS P i = iCntR P i) -> completes (initScripts P).
Proof.
  intros H. unfold initScripts. replace (map (initOn false P (iCntR P)) (seq 0 (iT P))) with (map (initOn false P (iCntS P)) (seq 0 (iT P))); [apply in_completes|].
  apply map_ext_in. intros c Hc. apply in_seq in Hc. destruct c as [|i]; unfold initOn; rewrite H by lia; done.
Qed.

(** GRR18 and RR16: one thread each. *)
Section one.
Variable P : initP.
Definition gB (me : bool) (c : nat) : list (nat * list (rank * ev)) :=
  [seg 0 [Snd (Chan c me) (iComm P)]; seg 1 [Get (Chan c (negb me)) 0 (iComm P); Snd (Chan c me) (iSeed P)]; seg 2 [Get (Chan c (negb me)) 1 (iSeed P)];
   (3%nat, talkR me c 2 3 0 (iBase P))].
Definition gM (me : bool) (c : nat) : list (rank * N) := ((0, 0)%nat, iComm P) :: ((1, 0)%nat, iSeed P) :: said me 3 0 (iBase P).
Lemma g_get me t r q j k : (t < 1)%nat -> (r, Get q j k) ∈ flat (gB me t) -> met 1 (gM true) (gM false) r q j k.
Proof.
  intros Ht H. assert (forall x r', gM (negb me) t !! x = Some (r', k) -> rlt r' r -> q = Chan t (negb me) -> j = x -> met 1 (gM true) (gM false) r q j k) as Hm.
  { intros x r' Hx Hlt -> ->. exists t, (negb me), r'. split; [done|]. split; [done|]. split; [by destruct me|done]. }
  unfold gB in H; parts H.
  - injection H as -> -> ->. eapply Hm; [|..|done|done]; [reflexivity|rl].
  - injection H as -> -> ->. eapply Hm; [|..|done|done]; [reflexivity|rl].
  - apply talkR_get in H as (-> & x & r' & H & -> & L). eapply Hm; [|exact L|done|reflexivity]. done.
Qed.
Lemma grr18_init_completes : completes (grr18InitScripts P).
Proof.
  replace (grr18InitScripts P) with (map evs (all 1 (fun t => flat (gB true t)) (fun t => flat (gB false t)) [])).
  2:{ unfold all, grr18InitScripts, toss. cbn [seq map app]. rewrite !flat_evs. unfold gB. cbn [map concat snd]. rewrite !seg_evs, !talkR_evs. cbn [app]. by rewrite !app_nil_r. }
  apply (pairs_complete _ _ _ _ (gM true) (gM false)); try by constructor.
  - intros t. unfold gB. sorted_tac.
  - intros t. unfold gB. sorted_tac.
  - intros t v d. unfold gB, gM. sends_tac t v d.
  - intros t v d. unfold gB, gM. sends_tac t v d.
  - intros t r q j k. apply g_get.
  - intros t r q j k. apply g_get.
  - intros t r q n Ht H. unfold gB in H. parts H; nowait H.
  - intros t r q n Ht H. unfold gB in H. parts H; nowait H.
Qed.
Definition cB (me : bool) (c : nat) : list (nat * list (rank * ev)) :=
  [seg 0 [Snd (Chan c me) (iComm P)]; (1%nat, talkR me c 1 1 0 (iBase P)); seg 2 [Get (Chan c (negb me)) 0 (iComm P); Snd (Chan c me) (iSeed P)];
   seg 3 [Get (Chan c (negb me)) (1 + heard me (iBase P)) (iSeed P)]].
Definition cM (me : bool) (c : nat) : list (rank * N) := ((0, 0)%nat, iComm P) :: said me 1 0 (iBase P) ++ [((2, 0)%nat, iSeed P)].
Lemma c_get me t r q j k : (t < 1)%nat -> (r, Get q j k) ∈ flat (cB me t) -> met 1 (cM true) (cM false) r q j k.
Proof.
  intros Ht H. assert (forall x r', cM (negb me) t !! x = Some (r', k) -> rlt r' r -> q = Chan t (negb me) -> j = x -> met 1 (cM true) (cM false) r q j k) as Hm.
  { intros x r' Hx Hlt -> ->. exists t, (negb me), r'. split; [done|]. split; [done|]. split; [by destruct me|done]. }
  unfold cB in H; parts H.
  - apply talkR_get in H as (-> & x & r' & H & -> & L). eapply Hm; [|exact L|done|reflexivity]. cbn [cM Nat.add lookup list_lookup]. by apply nth_head.
  - injection H as -> -> ->. eapply Hm; [|..|done|done]; [reflexivity|rl].
  - injection H as -> -> ->. eapply Hm; [|..|done|reflexivity].
    { cbn [cM Nat.add lookup list_lookup]. eapply (nth_tail _ _ _ 0); [|reflexivity]. by rewrite said_heard, negb_involutive, Nat.add_0_r. }
    rl.
Qed.
Lemma rr16_init_completes : completes (rr16InitScripts P).
Proof.
  replace (rr16InitScripts P) with (map evs (all 1 (fun t => flat (cB true t)) (fun t => flat (cB false t)) [])).
  2:{ unfold all, rr16InitScripts, tossLate. cbn [seq map app]. rewrite !flat_evs. unfold cB. cbn [map concat snd]. rewrite !seg_evs, !talkR_evs. cbn [app]. done. }
  apply (pairs_complete _ _ _ _ (cM true) (cM false)); try by constructor.
  - intros t. unfold cB. sorted_tac.
  - intros t. unfold cB. sorted_tac.
  - intros t v d. unfold cB, cM. sends_tac t v d.
  - intros t v d. unfold cB, cM. sends_tac t v d.
  - intros t r q j k. apply c_get.
  - intros t r q j k. apply c_get.
  - intros t r q n Ht H. unfold cB in H. parts H; nowait H.
  - intros t r q n Ht H. unfold cB in H. parts H; nowait H.
Qed.
End one.
