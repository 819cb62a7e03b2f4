(** Ranks for the scripts of RR17a, RR17b, GRR18 and RR16. *)
From stdpp Require Import sorting sets.
From Verif Require Import Base Partition_Model Sched_Model Sched_Spec Sched_Proofs Sched_Proofs2 Threads_Model Threads_Proofs.

Lemma sendsOf_snd q q' k l : sendsOf q (Snd q' k :: l) = (if decide (q' = q) then [k] else []) ++ sendsOf q l.
Proof. unfold sendsOf. cbn. by destruct (decide _). Qed.
Lemma sendsOf_get q q' j k l : sendsOf q (Get q' j k :: l) = sendsOf q l.
Proof. done. Qed.
Lemma sendsOf_wai q q' n l : sendsOf q (Wai q' n :: l) = sendsOf q l.
Proof. done. Qed.
Lemma sendsOf_act q a l : sendsOf q (Act a :: l) = sendsOf q l.
Proof. done. Qed.
Lemma sendsOf_nil q : sendsOf q [] = [].
Proof. done. Qed.
Lemma flat_cons_elem e b ps : e ∈ flat (b :: ps) <-> e ∈ b.2 \/ e ∈ flat ps.
Proof. unfold flat. cbn [map concat]. apply elem_of_app. Qed.
Lemma flat_nil_elem e : e ∈ flat [] -> False.
Proof. apply elem_of_nil. Qed.
Lemma flat_in ps i p l j e : ps !! i = Some (seg p l) -> l !! j = Some e -> ((p, 0%nat), e) ∈ flat ps.
Proof.
  intros H Hj. apply elem_of_list_In, in_concat. exists (seg p l).2. split.
  - apply in_map_iff. exists (seg p l). split; [done|]. apply elem_of_list_In. by eapply elem_of_list_lookup_2.
  - apply elem_of_list_In. cbn. apply elem_of_list_fmap. exists e. split; [done|]. by eapply elem_of_list_lookup_2.
Qed.
Lemma nth_head {A} (l1 l2 : list A) j y : l1 !! j = Some y -> (l1 ++ l2) !! j = Some y.
Proof. apply lookup_app_l_Some. Qed.
Lemma nth_tail {A} (l1 l2 : list A) j x y : j = (length l1 + x)%nat -> l2 !! x = Some y -> (l1 ++ l2) !! j = Some y.
Proof. intros -> H. rewrite lookup_app_r by lia. rewrite <- H. f_equal. lia. Qed.
Lemma nth_pair (r : rank) (l : list N) x k : l !! x = Some k -> map (pair r) l !! x = Some (r, k).
Proof. intros H. rewrite list_lookup_fmap, H. done. Qed.
Lemma arrives r q l r' k : (r', Snd q k) ∈ l -> rlt r' r -> (1 <= length (before r (rsends q l)))%nat.
Proof.
  intros H Hlt. assert ((r', k) ∈ before r (rsends q l)) as Hin.
  { apply elem_of_list_filter. split; [done|]. apply elem_of_list_omap. exists (r', Snd q k). split; [done|]. cbn. by rewrite decide_True. }
  destruct (before r (rsends q l)); [by apply elem_of_nil in Hin|]. cbn. lia.
Qed.
Lemma arrived_f T f g x r q n : (n <= T)%nat -> (forall t, exists r' k, (r', Snd q k) ∈ f t /\ rlt r' r) -> (n <= arrived T f g x r q)%nat.
Proof.
  intros Hn H. rewrite arrived_split. pose proof (many r q f 0 T) as Hm.
  enough (T <= length (before r (concat (map (rsends q) (map f (seq 0 T))))))%nat by lia. apply Hm.
  intros t _. destruct (H t) as (r' & k & Hin & Hlt). by eapply arrives.
Qed.
Lemma arrived_g T f g x r q n : (n <= T)%nat -> (forall t, exists r' k, (r', Snd q k) ∈ g t /\ rlt r' r) -> (n <= arrived T f g x r q)%nat.
Proof.
  intros Hn H. rewrite arrived_split. pose proof (many r q g 0 T) as Hm.
  enough (T <= length (before r (concat (map (rsends q) (map g (seq 0 T))))))%nat by lia. apply Hm.
  intros t _. destruct (H t) as (r' & k & Hin & Hlt). by eapply arrives.
Qed.
Lemma arrived_x1 r q x l r' k : l ∈ x -> (r', Snd q k) ∈ l -> rlt r' r -> (1 <= length (before r (concat (map (rsends q) x))))%nat.
Proof.
  intros Hl Hin Hlt. pose proof (arrives r q l r' k Hin Hlt) as H. apply elem_of_list_split in Hl as (x1 & x2 & ->).
  rewrite map_app. cbn [map]. rewrite concat_app. cbn [concat]. rewrite !before_app, !app_length. lia.
Qed.
Lemma arrived_x T f g x r q l r' k : l ∈ x -> (r', Snd q k) ∈ l -> rlt r' r -> (1 <= arrived T f g x r q)%nat.
Proof. intros Hl Hin Hlt. rewrite arrived_split. pose proof (arrived_x1 r q x l r' k Hl Hin Hlt). lia. Qed.
Lemma arrived_fx T f g x r q l r' k : (forall t, exists r' k, (r', Snd q k) ∈ f t /\ rlt r' r) -> l ∈ x -> (r', Snd q k) ∈ l -> rlt r' r -> (S T <= arrived T f g x r q)%nat.
Proof.
  intros H Hl Hin Hlt. rewrite arrived_split. pose proof (arrived_x1 r q x l r' k Hl Hin Hlt) as Hx. pose proof (many r q f 0 T) as Hm.
  enough (T <= length (before r (concat (map (rsends q) (map f (seq 0 T))))))%nat by lia. apply Hm.
  intros t _. destruct (H t) as (r'' & k' & Hin' & Hlt'). by eapply arrives.
Qed.

Ltac dec := repeat match goal with |- context [decide (?a = ?b)] => first [rewrite (decide_True (P := a = b)) by done | rewrite (decide_False (P := a = b)) by congruence] end.
Ltac simp_sends := rewrite ?flat_rsends; cbn [map concat app]; rewrite ?seg_rsends; cbn [snd]; rewrite ?talkR_sends;
  repeat first [rewrite sendsOf_app | rewrite sendsOf_snd | rewrite sendsOf_get | rewrite sendsOf_wai | rewrite sendsOf_act | rewrite sendsOf_nil | rewrite sendsOf_sends | rewrite sendsOf_gets].
Ltac sends_tac t v d := let E := fresh in simp_sends; destruct (Nat.eqb_spec t v) as [E|E]; destruct d; [subst v|subst v| |]; dec; cbn [andb negb map app]; rewrite ?app_nil_r, ?map_app; try reflexivity; rewrite ?app_assoc; try reflexivity.
Ltac sorted_tac := apply flat_sorted; [done|]; repeat (apply Forall_cons_2; [first [apply seg_block | apply talkR_block]|]); apply Forall_nil_2.
(** Membership in a script. *)
Ltac parts H :=
  match type of H with
  | _ ∈ flat (_ :: _) => apply flat_cons_elem in H as [H|H]; parts H
  | _ ∈ flat [] => by apply flat_nil_elem in H
  | _ ∈ (seg _ _).2 => apply seg_elem in H as [-> H]; parts H
  | _ ∈ [] => by apply elem_of_nil in H
  | _ ∈ _ :: _ => apply elem_of_cons in H as [H|H]; parts H
  | _ ∈ _ ++ _ => apply elem_of_app in H as [H|H]; parts H
  | _ ∈ sends _ _ => by (let k := fresh in apply sends_elem in H as (k & H))
  | _ => try discriminate H
  end.

(** A receive from a fixed list, in a conversation. *)
Ltac get_tac H t := let x := fresh "x" in let k := fresh "k" in apply gets_elem in H as (x & k & [= -> -> ->] & H); eexists t, _, _; split; [done|]; split; [reflexivity|]; split; cbn [negb].
Ltac rl := left; cbn; lia.
Ltac say_tac H t := let x := fresh "x" in let r := fresh "r'" in let E := fresh "E" in let L := fresh "L" in apply talkR_get in H as (-> & x & r & H & E & L); subst;
  eexists t, _, r; split; [done|]; split; [reflexivity|]; split; [|exact L]; cbn [negb] in *.

Ltac nowait H := solve [by apply talkR_wait in H | by apply gets_elem in H as (? & ? & ? & _)].

(** ** RR17a *)

Section rr17a.
Variable P : rr17a.
Definition aSb (t : nat) : list (nat * list (rank * ev)) :=
  [seg 0 [Act Inserted; Snd (Barrier true barA) 0]; seg 1 (Wai (Barrier true barA) (aT P) :: sends (Chan t true) (aCorr P t)); seg 2 [Wai (Barrier true permB) 1];
   seg 3 (gets (Chan t false) 0 (aCorr P t)); (4%nat, talkR true t (length (aCorr P t)) 4 0 (aChk1 P t));
   (5%nat, talkR true t (length (aCorr P t) + heard true (aChk1 P t)) 5 0 (aChk2 P t)); seg 6 [Act Checked; Snd (Barrier true barB) 0];
   seg 7 (Wai (Barrier true barB) (aT P) :: Act MasksSent :: sends (Chan t true) (aMasks P t)); seg 8 [done true]].
Definition aRb (t : nat) : list (nat * list (rank * ev)) :=
  [seg 0 [Snd (Barrier false barA) 0]; seg 1 (Wai (Barrier false barA) (aT P) :: sends (Chan t false) (aCorr P t));
   seg 3 (gets (Chan t true) 0 (aCorr P t)); (4%nat, talkR false t (length (aCorr P t)) 4 0 (aChk1 P t));
   (5%nat, talkR false t (length (aCorr P t) + heard false (aChk1 P t)) 5 0 (aChk2 P t)); seg 6 [Act Inserted; Snd (Barrier false barB) 0];
   seg 7 [Wai (Barrier false barB) (aT P); Act LookedUp];
   seg 8 (gets (Chan t true) (length (aCorr P t) + heard false (aChk1 P t) + heard false (aChk2 P t)) (aMasks P t)); seg 9 [done false]].
Definition permX : list (rank * ev) := flat [seg 0 permThread].
Definition aX : list (list (rank * ev)) := [permX; flat [seg 10 (senderMain (aT P))]; flat [seg 10 (receiverMain (aT P))]].
Definition aMS (t : nat) : list (rank * N) :=
  map (pair (1, 0)%nat) (aCorr P t) ++ said true 4 0 (aChk1 P t) ++ said true 5 0 (aChk2 P t) ++ map (pair (7, 0)%nat) (aMasks P t).
Definition aMR (t : nat) : list (rank * N) :=
  map (pair (1, 0)%nat) (aCorr P t) ++ said false 4 0 (aChk1 P t) ++ said false 5 0 (aChk2 P t).
Lemma a_scripts : map evs (all (aT P) (fun t => flat (aSb t)) (fun t => flat (aRb t)) aX) = rr17aScripts P.
Proof.
  unfold all, rr17aScripts. rewrite !map_app, !map_map. f_equal; [|f_equal].
  - apply map_ext. intros t. rewrite flat_evs. unfold aSb. cbn [map concat snd]. rewrite !seg_evs, !talkR_evs. unfold aSender, barrier.
    cbn [app]. rewrite ?app_nil_r, <- ?app_assoc. cbn [app]. rewrite <- ?app_assoc. done.
  - apply map_ext. intros t. rewrite flat_evs. unfold aRb. cbn [map concat snd]. rewrite !seg_evs, !talkR_evs. unfold aReceiver, barrier.
    cbn [app]. rewrite ?app_nil_r, <- ?app_assoc. cbn [app]. rewrite <- ?app_assoc. done.
Qed.
Lemma rr17a_completes : completes (rr17aScripts P).
Proof.
  rewrite <- a_scripts. apply (pairs_complete _ _ _ _ aMS aMR).
  - intros t. sorted_tac.
  - intros t. sorted_tac.
  - repeat (apply Forall_cons_2; [sorted_tac|]); apply Forall_nil_2.
  - intros t v d. unfold aSb, aMS. sends_tac t v d.
  - intros t v d. unfold aRb, aMR. sends_tac t v d.
  - repeat constructor; intros v d; done.
  - intros t r q j k Ht H. unfold aSb in H. parts H.
    + get_tac H t; [by apply nth_head, nth_pair|rl].
    + say_tac H t. eapply nth_tail; [rewrite map_length; reflexivity|]. apply nth_head. done.
    + say_tac H t. eapply nth_tail; [rewrite map_length; rewrite <- Nat.add_assoc; reflexivity|]. eapply nth_tail; [rewrite said_heard; reflexivity|]. done.
  - intros t r q j k Ht H. unfold aRb in H. parts H.
    + get_tac H t; [by apply nth_head, nth_pair|rl].
    + say_tac H t. eapply nth_tail; [rewrite map_length; reflexivity|]. apply nth_head. done.
    + say_tac H t. eapply nth_tail; [rewrite map_length; rewrite <- Nat.add_assoc; reflexivity|]. eapply nth_tail; [rewrite said_heard; reflexivity|]. apply nth_head. done.
    + get_tac H t.
      { eapply nth_tail; [rewrite map_length; rewrite <- !Nat.add_assoc; reflexivity|]. eapply nth_tail; [rewrite said_heard; reflexivity|].
        eapply nth_tail; [rewrite said_heard; reflexivity|]. by apply nth_pair. }
      rl.
  - repeat (apply Forall_cons_2; [intros r q j k H; unfold permX, permThread, senderMain, receiverMain in H; parts H|]); apply Forall_nil_2.
  - intros t r q n Ht H. unfold aSb in H. parts H; try nowait H.
    + injection H as -> ->. apply arrived_f; [done|]. intros t'. do 2 eexists. split; [eapply (flat_in _ 0 _ _ 1); reflexivity|left; cbn; lia].
    + injection H as -> ->. eapply arrived_x; [left|eapply (flat_in _ 0 _ _ 0); reflexivity|left; cbn; lia].
    + injection H as -> ->. apply arrived_f; [done|]. intros t'. do 2 eexists. split; [eapply (flat_in _ 6 _ _ 1); reflexivity|left; cbn; lia].
  - intros t r q n Ht H. unfold aRb in H. parts H; try nowait H.
    + injection H as -> ->. apply arrived_g; [done|]. intros t'. do 2 eexists. split; [eapply (flat_in _ 0 _ _ 0); reflexivity|left; cbn; lia].
    + injection H as -> ->. apply arrived_g; [done|]. intros t'. do 2 eexists. split; [eapply (flat_in _ 5 _ _ 1); reflexivity|left; cbn; lia].
  - apply Forall_cons_2; [|apply Forall_cons_2; [|apply Forall_cons_2; [|apply Forall_nil_2]]]; intros r q n H; unfold permX, permThread, senderMain, receiverMain in H; parts H.
    + injection H as -> ->. eapply arrived_fx; [|left|eapply (flat_in _ 0 _ _ 1); reflexivity|left; cbn; lia].
      intros t'. do 2 eexists. split; [eapply (flat_in _ 8 _ _ 0); reflexivity|left; cbn; lia].
    + injection H as -> ->. apply arrived_g; [done|]. intros t'. do 2 eexists. split; [eapply (flat_in _ 8 _ _ 0); reflexivity|left; cbn; lia].
Qed.
End rr17a.
