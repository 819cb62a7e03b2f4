(** Every schedule of DKT completes. *)
From stdpp Require Import sorting sets.
From Verif Require Import Base Partition_Model Sched_Model Sched_Spec Sched_Proofs Sched_Proofs2 Sched_Proofs3 Threads_Model Threads_Proofs Threads_Proofs2 Threads_Proofs4 Threads2_Model.

(** Steps depend on the size of the range only. *)
Lemma pieces_shift st fuel a s e : map snd (pieces st fuel (a + s) (a + e)) = map snd (pieces st fuel s e).
Proof.
  revert s. induction fuel as [|fuel IH]; intros s; [done|]. cbn [pieces].
  assert ((a + s <? a + e) = (s <? e)) as -> by (destruct (N.ltb_spec s e), (N.ltb_spec (a + s) (a + e)); lia).
  destruct (s <? e); [|done]. replace (a + e - (a + s)) with (e - s) by lia. cbn [map snd]. f_equal.
  rewrite <- (IH (s + N.min st (e - s))). do 2 f_equal. lia.
Qed.
Lemma k_mps P n t : kMpsSteps P n t = kSteps P n t.
Proof.
  unfold kMpsSteps, kSteps, piecesOf, width. destruct (kRange P n t) as [s e]. cbn [fst snd]. rewrite N.sub_0_r.
  destruct (N.le_gt_cases s e) as [H|H].
  - rewrite <- (pieces_shift 64 _ s 0 (e - s)). do 2 f_equal; lia.
  - replace (e - s) with 0 by lia. done.
Qed.
Lemma sendsOf_answers q P n t j : sendsOf q (kAnswers P n t j) = if decide (Chan t true = q) then map (fun k => k * kPt P) (kSteps P n t) else [].
Proof.
  unfold kAnswers. generalize (kSteps P n t). intros l. revert j. induction l as [|k l IH]; intros j; [by destruct (decide _)|]. rewrite imap_cons. cbn [concat app].
  rewrite sendsOf_get, sendsOf_snd.
  rewrite (imap_ext _ (fun i k => [Get (Chan t false) (S j + i) (k * (3 * kPt P)); Snd (Chan t true) (k * kPt P)]) l).
  2:{ intros i x _. cbn. do 2 f_equal. lia. }
  rewrite IH. by destruct (decide _).
Qed.
Lemma answers_elem e P n t j : e ∈ kAnswers P n t j ->
  (exists i k, e = Get (Chan t false) (j + i) (k * (3 * kPt P)) /\ kSteps P n t !! i = Some k) \/ exists k, e = Snd (Chan t true) k.
Proof.
  intros H. apply elem_of_list_In, in_concat in H as (l & Hl & He). apply elem_of_list_In, elem_of_lookup_imap in Hl as (i & k & -> & Hk).
  apply elem_of_list_In in He. apply elem_of_cons in He as [->|He]; [left; by exists i, k|]. apply elem_of_list_singleton in He as ->. right. by eexists.
Qed.

Section dkt.
Variable P : dkt.
Hypothesis same : kNS P = kNR P.
Local Notation n := (kNS P).
Local Notation st t := (kSteps P n t).
Local Notation T := (kT P).
Definition ptsOf (c : N) (t : nat) : list N := map (fun k => k * c) (st t).
Definition mskOf (t : nat) : list N := map (fun k => k * 16) (kMaskSteps P n t).
Definition kSb (t : nat) : list (nat * list (rank * ev)) :=
  let L := length (st t) in
  match t with
  | O => [seg 1 [Wai (Barrier true pchB) (T - 1); Get (Chan 0 false) 0 (2 * kPt P); Snd (Barrier true pchAllB) 0]; seg 2 [Snd (Chan 0 true) (kPt P)]; seg 3 (kAnswers P n 0 1);
          seg 5 [Wai (Barrier true sigmaHashB) (T - 1); Snd (Chan 0 true) (kPt P + kNum P); Get (Chan 0 false) (1 + L) (kNum P); Snd (Barrier true sigma2PhiB) 0];
          seg 7 (gets (Chan 0 false) (1 + L + 1) (ptsOf (kNum P) 0)); seg 8 (Act MasksSent :: sends (Chan 0 true) (ptsOf (kPt P) 0) ++ sends (Chan 0 true) (mskOf 0)); seg 16 [Wai (Barrier true joinB) (T - 1)]]
  | S _ => [seg 0 [Snd (Barrier true pchB) 0]; seg 2 [Wai (Barrier true pchAllB) 1]; seg 3 (kAnswers P n t 0); seg 4 [Snd (Barrier true sigmaHashB) 0]; seg 6 [Wai (Barrier true sigma2PhiB) 1];
            seg 7 (gets (Chan t false) (0 + L + 0) (ptsOf (kNum P) t)); seg 8 (Act MasksSent :: sends (Chan t true) (ptsOf (kPt P) t) ++ sends (Chan t true) (mskOf t)); seg 9 [done true]]
  end.
Definition kRb (t : nat) : list (nat * list (rank * ev)) :=
  let L := length (st t) in
  match t with
  | O => [seg 0 [Snd (Chan 0 false) (2 * kPt P)]; seg 1 (sends (Chan 0 false) (ptsOf (3 * kPt P) 0));
          seg 3 [Wai (Barrier false sigmaHashB) (T - 1); Snd (Barrier false sigmaValsB) 0; Snd (Chan 0 false) (kNum P)]; seg 5 (sends (Chan 0 false) (ptsOf (kNum P) 0));
          seg 6 (Get (Chan 0 true) 0 (kPt P) :: gets (Chan 0 true) 1 (ptsOf (kPt P) 0));
          seg 8 [Wai (Barrier false sigma2HashB) (T - 1); Get (Chan 0 true) (1 + L) (kPt P + kNum P); Snd (Barrier false sigma2ValsB) 0];
          seg 10 (gets (Chan 0 true) (1 + L + 1) (ptsOf (kPt P) 0)); seg 12 [Act Hashed; Wai (Barrier false inputHashB) (T - 1); Act Inserted; Snd (Barrier false mergedB) 0];
          seg 14 (Act LookedUp :: gets (Chan 0 true) (1 + L + 1 + L) (mskOf 0)); seg 16 [Wai (Barrier false joinB) (T - 1)]]
  | S _ => [seg 1 (sends (Chan t false) (ptsOf (3 * kPt P) t)); seg 2 [Snd (Barrier false sigmaHashB) 0]; seg 4 [Wai (Barrier false sigmaValsB) 1]; seg 5 (sends (Chan t false) (ptsOf (kNum P) t));
            seg 6 (gets (Chan t true) 0 (ptsOf (kPt P) t)); seg 7 [Snd (Barrier false sigma2HashB) 0]; seg 9 [Wai (Barrier false sigma2ValsB) 1];
            seg 10 (gets (Chan t true) (0 + L + 0) (ptsOf (kPt P) t)); seg 11 [Act Hashed; Snd (Barrier false inputHashB) 0]; seg 13 [Wai (Barrier false mergedB) 1];
            seg 14 (Act LookedUp :: gets (Chan t true) (0 + L + 0 + L) (mskOf t)); seg 15 [done false]]
  end.
Definition only0 (t : nat) (m : rank * N) : list (rank * N) := match t with O => [m] | S _ => [] end.
Definition kMS (t : nat) : list (rank * N) :=
  only0 t ((2, 0)%nat, kPt P) ++ map (pair (3, 0)%nat) (ptsOf (kPt P) t) ++ only0 t ((5, 0)%nat, kPt P + kNum P) ++ map (pair (8, 0)%nat) (ptsOf (kPt P) t) ++ map (pair (8, 0)%nat) (mskOf t).
Definition kMR (t : nat) : list (rank * N) :=
  only0 t ((0, 0)%nat, 2 * kPt P) ++ map (pair (1, 0)%nat) (ptsOf (3 * kPt P) t) ++ only0 t ((3, 0)%nat, kNum P) ++ map (pair (5, 0)%nat) (ptsOf (kNum P) t).
Lemma k_scripts : map evs (all T (fun t => flat (kSb t)) (fun t => flat (kRb t)) []) = dktScripts P.
Proof.
  unfold all, dktScripts. rewrite !map_app, !map_map. cbn [map]. rewrite app_nil_r. apply (f_equal2 app).
  - apply map_ext. intros [|i]; rewrite flat_evs; unfold kSb; cbn [map concat snd]; rewrite !seg_evs; unfold kSender; rewrite k_mps; unfold kPch, kProof, kEnd, first, ptsOf, mskOf; cbn [app];
      rewrite ?app_nil_r, <- ?app_assoc; cbn [app]; rewrite <- ?app_assoc; done.
  - apply map_ext. intros [|i]; rewrite flat_evs; unfold kRb; cbn [map concat snd]; rewrite !seg_evs; unfold kReceiver; rewrite <- same;
      unfold kHead, kSigma, kSigma2A, kSigma2, kMerge, kEnd, first, ptsOf, mskOf; cbn [app]; rewrite ?app_nil_r, <- ?app_assoc; cbn [app]; rewrite <- ?app_assoc; done.
Qed.
Lemma ks_sends t v d : rsends (Chan v d) (flat (kSb t)) = if (d && (t =? v)%nat)%bool then kMS t else [].
Proof.
  destruct t as [|i]; unfold kSb, kMS, only0, done; simp_sends; rewrite ?sendsOf_answers.
  - destruct (Nat.eqb_spec 0 v) as [E|E]; destruct d; [subst v|subst v| |]; dec; cbn [andb negb map app]; rewrite ?app_nil_r, ?map_app; done.
  - destruct (Nat.eqb_spec (S i) v) as [E|E]; destruct d; [subst v|subst v| |]; dec; cbn [andb negb map app]; rewrite ?app_nil_r, ?map_app; done.
Qed.
Lemma kr_sends t v d : rsends (Chan v d) (flat (kRb t)) = if (negb d && (t =? v)%nat)%bool then kMR t else [].
Proof. destruct t as [|i]; unfold kRb, kMR, only0, done; [sends_tac 0%nat v d|sends_tac (S i) v d]. Qed.
Lemma pts_lookup c t x k : st t !! x = Some k -> ptsOf c t !! x = Some (k * c).
Proof. intros H. unfold ptsOf. by rewrite list_lookup_fmap, H. Qed.
Ltac meets t d := exists t, d; eexists; split; [done|]; split; [reflexivity|]; split.
Lemma len_pts c t : length (ptsOf c t) = length (st t).
Proof. apply map_length. Qed.
Ltac lens := repeat rewrite ?map_length, ?len_pts.
Lemma ks_get t r q j k : (t < T)%nat -> (r, Get q j k) ∈ flat (kSb t) -> met T kMS kMR r q j k.
Proof.
  intros Ht H. destruct t as [|i]; unfold kSb, done in H; parts H.
  - injection H as -> -> ->. meets 0%nat false; [reflexivity|rl].
  - apply answers_elem in H as [(x & k' & [= -> -> ->] & Hx)|(? & ?)]; [|done]. meets 0%nat false.
    { eapply (nth_tail _ _ _ x); [reflexivity|]. apply nth_head, nth_pair. by apply pts_lookup. } rl.
  - injection H as -> -> ->. meets 0%nat false.
    { eapply (nth_tail _ _ _ _); [reflexivity|]. eapply (nth_tail _ _ _ 0); [by rewrite Nat.add_0_r; lens|]. reflexivity. } rl.
  - get_tac H 0%nat.
    { eapply (nth_tail _ _ _ _); [reflexivity|]. eapply (nth_tail _ _ _ (1 + x)); [by lens; lia|]. apply nth_pair, H. } rl.
  - apply answers_elem in H as [(x & k' & [= -> -> ->] & Hx)|(? & ?)]; [|done]. meets (S i) false.
    { unfold kMR; cbn [only0 app]. apply nth_head, nth_pair. by apply pts_lookup. } rl.
  - get_tac H (S i).
    { unfold kMS, kMR; cbn [only0 app]. eapply (nth_tail _ _ _ x); [by lens; lia|]. apply nth_pair, H. } rl.
Qed.
Lemma kr_get t r q j k : (t < T)%nat -> (r, Get q j k) ∈ flat (kRb t) -> met T kMS kMR r q j k.
Proof.
  intros Ht H. destruct t as [|i]; unfold kRb, done in H; parts H.
  - injection H as -> -> ->. meets 0%nat true; [reflexivity|rl].
  - get_tac H 0%nat.
    { eapply (nth_tail _ _ _ x); [reflexivity|]. apply nth_head, nth_pair, H. } rl.
  - injection H as -> -> ->. meets 0%nat true.
    { eapply (nth_tail _ _ _ _); [reflexivity|]. eapply (nth_tail _ _ _ 0); [by rewrite Nat.add_0_r; lens|]. reflexivity. } rl.
  - get_tac H 0%nat.
    { eapply (nth_tail _ _ _ _); [reflexivity|]. eapply (nth_tail _ _ _ (1 + x)); [by lens; lia|]. eapply (nth_tail _ _ _ x); [reflexivity|]. apply nth_head, nth_pair, H. } rl.
  - get_tac H 0%nat.
    { eapply (nth_tail _ _ _ _); [reflexivity|]. eapply (nth_tail _ _ _ (1 + length (st 0) + x)); [by lens; lia|]. eapply (nth_tail _ _ _ (length (st 0) + x)); [reflexivity|].
      eapply (nth_tail _ _ _ x); [by lens|]. apply nth_pair, H. } rl.
  - get_tac H (S i).
    { unfold kMS, kMR; cbn [only0 app]. apply nth_head, nth_pair, H. } rl.
  - get_tac H (S i).
    { unfold kMS, kMR; cbn [only0 app]. eapply (nth_tail _ _ _ x); [by lens; lia|]. apply nth_head, nth_pair, H. } rl.
  - get_tac H (S i).
    { unfold kMS, kMR; cbn [only0 app]. eapply (nth_tail _ _ _ (length (st (S i)) + x)); [by lens; lia|]. eapply (nth_tail _ _ _ x); [by lens|]. apply nth_pair, H. } rl.
Qed.
Lemma from_others (f : nat -> list (rank * ev)) r q : (0 < T)%nat -> (forall i, exists r' k, (r', Snd q k) ∈ f (S i) /\ rlt r' r) -> (T - 1 <= length (before r (concat (map (rsends q) (map f (seq 0 T))))))%nat.
Proof.
  intros HT H. assert (seq 0 T = 0%nat :: seq 1 (T - 1)) as -> by (destruct T; [lia|cbn; by rewrite Nat.sub_0_r]).
  cbn [map concat]. rewrite before_app, app_length. pose proof (many r q f 1 (T - 1)) as Hm. etransitivity; [apply Hm|lia].
  intros [|i] Ht; [lia|]. destruct (H i) as (r' & k & Hin & Hlt). by eapply arrives.
Qed.
Lemma from_first (f : nat -> list (rank * ev)) r q : (0 < T)%nat -> (exists r' k, (r', Snd q k) ∈ f O /\ rlt r' r) -> (1 <= length (before r (concat (map (rsends q) (map f (seq 0 T))))))%nat.
Proof.
  intros HT (r' & k & Hin & Hlt). assert (seq 0 T = 0%nat :: seq 1 (T - 1)) as -> by (destruct T; [lia|cbn; by rewrite Nat.sub_0_r]).
  cbn [map concat]. rewrite before_app, app_length. etransitivity; [by eapply arrives|apply Nat.le_add_r].
Qed.
Ltac at_ b x y := eapply (flat_in b x _ _ y); reflexivity.
Lemma ks_wait t r q m : (t < T)%nat -> (r, Wai q m) ∈ flat (kSb t) -> (m <= arrived T (fun t => flat (kSb t)) (fun t => flat (kRb t)) [] r q)%nat.
Proof.
  intros Ht H. assert (0 < T)%nat as HT by lia. assert (m <= length (before r (concat (map (rsends q) (map (fun t => flat (kSb t)) (seq 0 T))))))%nat; [|rewrite arrived_split; lia].
  destruct t as [|i]; unfold kSb, done in H; parts H; try nowait H; try (by apply answers_elem in H as [(? & ? & ? & _)|(? & ?)]); injection H as -> ->.
  - apply from_others; [done|]. intros i. do 2 eexists. split; [at_ (kSb (S i)) 0%nat 0%nat|rl].
  - apply from_others; [done|]. intros i. do 2 eexists. split; [at_ (kSb (S i)) 3%nat 0%nat|rl].
  - apply from_others; [done|]. intros i. do 2 eexists. split; [at_ (kSb (S i)) 7%nat 0%nat|rl].
  - apply from_first; [done|]. do 2 eexists. split; [at_ (kSb 0) 0%nat 2%nat|rl].
  - apply from_first; [done|]. do 2 eexists. split; [at_ (kSb 0) 3%nat 3%nat|rl].
Qed.
Lemma kr_wait t r q m : (t < T)%nat -> (r, Wai q m) ∈ flat (kRb t) -> (m <= arrived T (fun t => flat (kSb t)) (fun t => flat (kRb t)) [] r q)%nat.
Proof.
  intros Ht H. assert (0 < T)%nat as HT by lia. assert (m <= length (before r (concat (map (rsends q) (map (fun t => flat (kRb t)) (seq 0 T))))))%nat; [|rewrite arrived_split; lia].
  destruct t as [|i]; unfold kRb, done in H; parts H; try nowait H; injection H as -> ->.
  - apply from_others; [done|]. intros i. do 2 eexists. split; [at_ (kRb (S i)) 1%nat 0%nat|rl].
  - apply from_others; [done|]. intros i. do 2 eexists. split; [at_ (kRb (S i)) 5%nat 0%nat|rl].
  - apply from_others; [done|]. intros i. do 2 eexists. split; [at_ (kRb (S i)) 8%nat 1%nat|rl].
  - apply from_others; [done|]. intros i. do 2 eexists. split; [at_ (kRb (S i)) 11%nat 0%nat|rl].
  - apply from_first; [done|]. do 2 eexists. split; [at_ (kRb 0) 2%nat 1%nat|rl].
  - apply from_first; [done|]. do 2 eexists. split; [at_ (kRb 0) 5%nat 2%nat|rl].
  - apply from_first; [done|]. do 2 eexists. split; [at_ (kRb 0) 7%nat 3%nat|rl].
Qed.
Lemma ks_sorted t : StronglySorted rle (map fst (flat (kSb t))).
Proof. destruct t as [|i]; unfold kSb; sorted_tac. Qed.
Lemma kr_sorted t : StronglySorted rle (map fst (flat (kRb t))).
Proof. destruct t as [|i]; unfold kRb; sorted_tac. Qed.
Lemma k_completes : completes (dktScripts P).
Proof.
  rewrite <- k_scripts. apply (pairs_complete _ _ _ _ kMS kMR); try by constructor.
  - intros t. apply ks_sorted.
  - intros t. apply kr_sorted.
  - intros t v d. apply ks_sends.
  - intros t v d. apply kr_sends.
  - intros t r q j k. apply ks_get.
  - intros t r q j k. apply kr_get.
  - intros t r q m. apply ks_wait.
  - intros t r q m. apply kr_wait.
Qed.
End dkt.
Lemma dkt_completes P : kNS P = kNR P -> completes (dktScripts P).
Proof. apply k_completes. Qed.
