(** Proofs about the traffic of the protocols. *)
From Verif Require Import Base Partition_Model Ecdh_Model Sched_Model Sched_Spec Threads_Model Threads2_Model Init_Spec Init_Proofs Volume_Spec Volume_Proofs.

Lemma vol_two p T (f g : nat -> list ev) rest :
  total (map (vol p) (map f (seq 0 T) ++ map g (seq 0 T) ++ rest)) = perThread T (fun t => vol p (f t)) + perThread T (fun t => vol p (g t)) + total (map (vol p) rest).
Proof. rewrite !map_app, !total_app, !scripts_vol. lia. Qed.
Lemma perThread_zero T f : (forall t, f t = 0) -> perThread T f = 0.
Proof. intros H. rewrite (perThread_ext _ _ (fun _ => 0)) by auto. rewrite perThread_const. lia. Qed.
Lemma vol_conc_imap p {A} (f : nat -> A -> list ev) (g : A -> N) (l : list A) : (forall i x, vol p (f i x) = g x) -> vol p (concat (imap f l)) = total (map g l).
Proof.
  revert f. induction l as [|x l IH]; intros f H; [done|]. rewrite imap_cons. cbn [concat map]. rewrite vol_app, total_cons, H, (IH (f ∘ S)); [done|].
  intros i y. apply H.
Qed.
Ltac vols := cbv beta iota zeta; repeat (rewrite vol_app || rewrite vol_cons || rewrite vol_nil || rewrite vol_barrier || rewrite vol_sends || rewrite vol_gets || rewrite vol_talk); cbn [evSize done Bool.eqb].
Ltac addThreads := rewrite ?perThread_add, ?perThread_mul.

(** ** ECDH *)

Lemma ecdh_traffic P : (0 < eT P)%nat -> eNS P * N.of_nat (eT P) < two64 -> eNR P * N.of_nat (eT P) < two64 ->
  sendsInAll (ecdhScripts P) (eNS P * (ePt P + eMask (eNS P))) (eNR P * ePt P).
Proof.
  intros HT HS HR. apply vol_finished; unfold ecdhScripts; rewrite vol_two.
  - rewrite (perThread_ext _ _ (fun t => (ePt P + eMask (eNS P)) * eSub P (eNS P) t)) by (intros t _; unfold eSender; vols; lia).
    rewrite (perThread_zero _ (fun t => vol true (eReceiver P t))) by (intros t; unfold eReceiver; by vols).
    rewrite perThread_mul. unfold eSub, width. rewrite even_sum by done. cbn. lia.
  - rewrite (perThread_zero _ (fun t => vol false (eSender P t))) by (intros t; unfold eSender; by vols).
    rewrite (perThread_ext _ _ (fun t => ePt P * eSub P (eNR P) t)) by (intros t _; unfold eReceiver; vols; lia).
    rewrite perThread_mul. unfold eSub, width. rewrite even_sum by done. cbn. lia.
Qed.

(** ** DKT *)

Lemma steps_sum step r k : 0 < step -> total (map (fun x => x * k) (map snd (piecesOf step r))) = (r.2 - r.1) * k.
Proof. intros H. rewrite map_map. by apply pieces_mul. Qed.
Lemma dkt_traffic P : (0 < kT P)%nat -> kNS P * N.of_nat (kT P) < two64 -> kNR P * N.of_nat (kT P) < two64 ->
  sendsInAll (dktScripts P) (2 * kPt P + kNum P + kNS P * (2 * kPt P + 16)) (2 * kPt P + kNum P + kNR P * (3 * kPt P + kNum P)).
Proof.
  intros HT HS HR. apply vol_finished; unfold dktScripts; rewrite <- (app_nil_r (map (kReceiver P) _)), vol_two.
  - rewrite (perThread_zero _ (fun t => vol true (kReceiver P t))).
    2: { intros [|t]; unfold kReceiver, kHead, kSigma, kSigma2A, kSigma2, kMerge, kEnd; by vols. }
    rewrite (perThread_ext _ _ (fun t => (match t with O => 2 * kPt P + kNum P | S _ => 0 end) + (2 * kPt P + 16) * width (kRange P (kNS P) t))).
    2: { intros t _. unfold kSender. vols. unfold kAnswers. rewrite (vol_conc_imap _ _ (fun k => k * kPt P)) by (intros; vols; lia).
         unfold kSteps, kMpsSteps, kMaskSteps. rewrite !steps_sum by lia. cbn [fst snd]. unfold width.
         destruct t; unfold kPch, kProof, kEnd; vols; lia. }
    rewrite perThread_add, perThread_mul. unfold kRange, width. rewrite even_sum by done.
    rewrite (perThread_first _ _ (2 * kPt P + kNum P)); [cbn; lia|done| |done]. intros [|t]; [lia|done].
  - rewrite (perThread_zero _ (fun t => vol false (kSender P t))).
    2: { intros [|t]; unfold kSender, kPch, kProof, kEnd, kAnswers; vols; rewrite (vol_conc_imap _ _ (fun _ => 0)) by (intros; by vols);
         (rewrite (map_ext _ (fun k => k * 0)) by (intros; lia)); unfold kSteps; rewrite steps_sum by lia; lia. }
    rewrite (perThread_ext _ _ (fun t => (match t with O => 2 * kPt P + kNum P | S _ => 0 end) + (3 * kPt P + kNum P) * width (kRange P (kNR P) t))).
    2: { intros t _. unfold kReceiver. vols. unfold kSteps. rewrite !steps_sum by lia. unfold width.
         destruct t; unfold kHead, kSigma, kSigma2A, kSigma2, kMerge, kEnd; vols; lia. }
    rewrite perThread_add, perThread_mul. unfold kRange, width. rewrite even_sum by done.
    rewrite (perThread_first _ _ (2 * kPt P + kNum P)); [cbn; lia|done| |done]. intros [|t]; [lia|done].
Qed.

(** ** DCW *)

Lemma dcw_traffic P : (0 < wT P)%nat ->
  sendsInAll (dcwScripts P) (wSeed P + said true (wBase P) + perThread (wT P) (fun c => said true (wConv P (wNS P) c)) + 16 * wNS P)
    (wSeed P + said false (wBase P) + perThread (wT P) (fun c => said false (wConv P (wNR P) c)) + 192 * wNR P).
Proof.
  intros HT. apply vol_finished; unfold dcwScripts; rewrite <- (app_nil_r (map (wParty false P _) _)), vol_two.
  - rewrite (perThread_zero _ (fun t => vol true (wParty false P (wNR P) t))) by (intros [|t]; unfold wParty, wOnline; vols; cbn; lia).
    rewrite (perThread_ext _ _ (fun t => (match t with O => wSeed P + said true (wBase P) + 16 * wNS P | S _ => 0 end) + said true (wConv P (wNS P) t))).
    2: { intros [|t] _; unfold wParty, wOnline; vols; cbn [Bool.eqb]; lia. }
    rewrite perThread_add, (perThread_first _ _ (wSeed P + said true (wBase P) + 16 * wNS P)); [cbn; lia|done| |done]. intros [|t]; [lia|done].
  - rewrite (perThread_zero _ (fun t => vol false (wParty true P (wNS P) t))) by (intros [|t]; unfold wParty, wOnline; vols; cbn; lia).
    rewrite (perThread_ext _ _ (fun t => (match t with O => wSeed P + said false (wBase P) + 192 * wNR P | S _ => 0 end) + said false (wConv P (wNR P) t))).
    2: { intros [|t] _; unfold wParty, wOnline, wBits; vols; cbn [Bool.eqb]; lia. }
    rewrite perThread_add, (perThread_first _ _ (wSeed P + said false (wBase P) + 192 * wNR P)); [cbn; lia|done| |done]. intros [|t]; [lia|done].
Qed.

(** ** RR16 *)

Lemma rr16_traffic P : (0 < cT P)%nat -> cN P * N.of_nat (cT P) < two64 -> sendsInAll (rr16Scripts P) (cN P) (cBf P).
Proof.
  intros HT H. apply vol_finished; unfold rr16Scripts; rewrite vol_two.
  - rewrite (perThread_zero _ (fun t => vol true (cReceiver P t))).
    2: { intros t. unfold cReceiver. vols. destruct (t =? 0)%nat, (t =? cFirst P)%nat; by vols. }
    rewrite (perThread_ext _ _ (fun t => (evenSplit (cN P) (N.of_nat (cT P)) (N.of_nat t)).2 - (evenSplit (cN P) (N.of_nat (cT P)) (N.of_nat t)).1)).
    2: { intros t _. unfold cSender, cMasks. vols. lia. }
    rewrite even_sum by done. cbn. lia.
  - rewrite (perThread_zero _ (fun t => vol false (cSender P t))) by (intros t; unfold cSender; by vols).
    rewrite (perThread_first _ _ (cBf P)); [cbn; lia|done| |].
    + intros t Ht. unfold cReceiver. vols. destruct (Nat.eqb_spec t 0); [lia|]. destruct (t =? cFirst P)%nat; by vols.
    + unfold cReceiver. vols. cbn [Nat.eqb]. destruct (cFirst P); vols; lia.
Qed.

(** ** RR17a *)

Definition chunk (per tot size : N) (i : nat) : N := N.min per (tot - N.of_nat i * per) * size.
Definition mine (T t : nat) (g : nat -> N) (i : nat) : N := if (i mod T =? t)%nat then g i else 0.
Lemma total_zero {A} (f : A -> N) l : (forall x, x ∈ l -> f x = 0) -> total (map f l) = 0.
Proof.
  induction l as [|x l IH]; intros H; [done|]. cbn [map]. rewrite total_cons, (H x) by apply elem_of_list_here. rewrite IH; [done|].
  intros y Hy. apply H. by apply elem_of_list_further.
Qed.
Lemma stride_from per tot size num T t fuel : (t < T)%nat -> forall i, (i mod T = t)%nat -> (num <= i + fuel)%nat ->
  total (strideChunks per tot size (N.of_nat num) (N.of_nat T) fuel (N.of_nat i)) = total (map (mine T t (chunk per tot size)) (seq i (num - i))).
Proof.
  intros Ht. induction fuel as [|f IH]; intros i Hi Hf.
  - replace (num - i)%nat with 0%nat by lia. done.
  - cbn [strideChunks]. destruct (N.ltb_spec (N.of_nat i) (N.of_nat num)) as [L|L]; [|by replace (num - i)%nat with 0%nat by lia].
    rewrite total_cons, <- Nat2N.inj_add, IH.
    2: { rewrite Nat.add_mod, Nat.mod_same, Nat.add_0_r, !Nat.mod_mod; lia. }
    2: { lia. }
    replace (num - i)%nat with (S (Nat.min (T - 1) (num - i - 1) + (num - (i + T))))%nat by lia. cbn [seq map]. rewrite total_cons.
    unfold mine at 2. rewrite Hi, Nat.eqb_refl. unfold chunk at 2. f_equal.
    rewrite seq_app, map_app, total_app, (total_zero _ (seq (S i) _)).
    2: { intros x Hx. apply elem_of_seq in Hx. unfold mine. destruct (Nat.eqb_spec (x mod T) t) as [E|_]; [|done]. exfalso.
         assert (x = i + (x - i))%nat as Ex by lia. rewrite Ex in E. rewrite Nat.add_mod, Hi, (Nat.mod_small (x - i)) in E by lia.
         destruct (Nat.lt_ge_cases (t + (x - i)) T) as [A|A]; [rewrite Nat.mod_small in E by lia; lia|].
         assert (t + (x - i) = (t + (x - i) - T) + 1 * T)%nat as E2 by lia. rewrite E2, Nat.mod_add, Nat.mod_small in E by lia. lia. }
    destruct (Nat.le_gt_cases (i + T) num) as [A|A].
    + replace (S i + Nat.min (T - 1) (num - i - 1))%nat with (i + T)%nat by lia. lia.
    + replace (num - (i + T))%nat with 0%nat by lia. done.
Qed.
Lemma stride_all per tot size num T t : (t < T)%nat ->
  total (strideChunks per tot size num (N.of_nat T) (N.to_nat num) (N.of_nat t)) = perThread (N.to_nat num) (mine T t (chunk per tot size)).
Proof.
  intros Ht. rewrite <- (N2Nat.id num) at 1. rewrite (stride_from per tot size _ _ t) by (rewrite ?Nat.mod_small; lia). unfold perThread.
  destruct (Nat.le_gt_cases t (N.to_nat num)) as [A|A].
  - replace (N.to_nat num) with (t + (N.to_nat num - t))%nat at 2 by lia. rewrite seq_app, map_app, total_app, (total_zero _ (seq 0 t)); [done|].
    intros x Hx. apply elem_of_seq in Hx. unfold mine. rewrite Nat.mod_small by lia. destruct (Nat.eqb_spec x t); [lia|done].
  - replace (N.to_nat num - t)%nat with 0%nat by lia. cbn [seq map]. rewrite total_zero; [done|].
    intros x Hx. apply elem_of_seq in Hx. unfold mine. rewrite Nat.mod_small by lia. destruct (Nat.eqb_spec x t); [lia|done].
Qed.
Lemma swap_mine T m g : (0 < T)%nat -> perThread T (fun t => perThread m (mine T t g)) = perThread m g.
Proof.
  intros HT. induction m as [|m IH]; [by apply perThread_zero|].
  rewrite (perThread_ext _ _ (fun t => perThread m (mine T t g) + mine T t g m)) by (intros; by rewrite perThread_S).
  rewrite perThread_add, IH, perThread_S. f_equal. clear IH. pose proof (Nat.mod_upper_bound m T ltac:(lia)) as Hm.
  unfold mine. generalize (m mod T)%nat Hm. generalize (g m). clear. intros k. induction T as [|T IH]; intros r Hr; [lia|]. rewrite perThread_S. destruct (Nat.eqb_spec r T) as [->|Hne].
  - rewrite (perThread_ext _ _ (fun _ => 0)); [rewrite perThread_const; lia|]. intros t Ht. destruct (Nat.eqb_spec T t); [lia|done].
  - rewrite IH by lia. lia.
Qed.
Lemma chunks_sum per tot size : (0 < tot -> 0 < per) -> perThread (N.to_nat ((tot + (per - 1)) / per)) (chunk per tot size) = tot * size.
Proof.
  intros H. destruct (N.eq_dec tot 0) as [->|Hn].
  - apply perThread_zero. intros t. unfold chunk. rewrite N.sub_0_l, N.min_0_r. done.
  - specialize (H ltac:(lia)). set (num := (tot + (per - 1)) / per).
    assert (tot <= num * per) as Hc. { pose proof (ceil_div tot per H) as C. unfold num. replace (tot + (per - 1)) with (tot + per - 1) by lia. done. }
    rewrite (perThread_ext _ _ (fun t => size * (N.min (N.of_nat (S t) * per) tot - N.min (N.of_nat t * per) tot))).
    2: { intros t _. unfold chunk. rewrite (N.mul_comm _ size). f_equal. nia. }
    rewrite perThread_mul, (telescoped _ (fun t => N.min (N.of_nat t * per) tot)) by (intros; nia). rewrite N2Nat.id. replace (N.min (num * per) tot) with tot by lia. cbn. lia.
Qed.
Lemma masks_sum tot size T : (0 < T)%nat -> perThread T (fun t => total (rrMasks tot size T t)) = tot * size.
Proof.
  intros HT. unfold rrMasks. set (per := N.min _ _). rewrite (perThread_ext _ _ (fun t => perThread (N.to_nat ((tot + (per - 1)) / per)) (mine T t (chunk per tot size)))).
  2: { intros t Ht. by apply stride_all. }
  rewrite swap_mine by done. apply chunks_sum. intros H. unfold per. assert (1 <= (tot + N.of_nat T - 1) / N.of_nat T); [|apply N.min_glb_lt; [by vm_compute|lia]].
  apply N.div_le_lower_bound; lia.
Qed.
Lemma rr17a_traffic P : (0 < aT P)%nat -> 0 < aStep P -> aBins P * N.of_nat (aT P) < two64 ->
  sendsInAll (rr17aScripts P)
    (aBins P * aCap P + aN P * aCap P * aMask P + perThread (aT P) (fun t => said true (aChk1 P t) + said true (aChk2 P t)))
    (aBins P * aCap P + perThread (aT P) (fun t => said false (aChk1 P t) + said false (aChk2 P t))).
Proof.
  intros HT Hs H. apply vol_finished; unfold rr17aScripts; rewrite vol_two.
  - rewrite (perThread_zero _ (fun t => vol true (aReceiver P t))) by (intros t; unfold aReceiver; by vols).
    rewrite (perThread_ext _ _ (fun t => (total (aCorr P t) + total (aMasks P t)) + (said true (aChk1 P t) + said true (aChk2 P t)))) by (intros t _; unfold aSender; vols; lia).
    rewrite !(perThread_add _ (fun t => total _ + total _)), (perThread_add _ (fun t => total (aCorr P t))). unfold aCorr, aMasks.
    rewrite perThread_ranges, even_sum, masks_sum by done. cbn. lia.
  - rewrite (perThread_zero _ (fun t => vol false (aSender P t))) by (intros t; unfold aSender; by vols).
    rewrite (perThread_ext _ _ (fun t => total (aCorr P t) + (said false (aChk1 P t) + said false (aChk2 P t)))) by (intros t _; unfold aReceiver; vols; lia).
    rewrite (perThread_add _ (fun t => total (aCorr P t))). unfold aCorr. rewrite perThread_ranges, even_sum by done. cbn. lia.
Qed.

(** ** RR17b *)

Lemma rr17b_traffic P : (0 < bT P)%nat -> 0 < bStep P -> 0 < bChunk P -> bBins P * N.of_nat (bT P) < two64 ->
  bN P + N.of_nat (bT P) < two64 -> N.of_nat (bT P) * ((bN P + N.of_nat (bT P) - 1) / N.of_nat (bT P)) < two64 ->
  sendsInAll (rr17bScripts P) (bN P * bSet P + perThread (bT P) (fun t => said true (bChk P t))) (bBins P * bCap P + perThread (bT P) (fun t => said false (bChk P t))).
Proof.
  intros HT Hs Hc H HN HC. assert (forall p t, vol p (concat (imap (fun i k => [Get (Chan t true) (heard false (bChk P t) + i) k; Act LookedUp]) (bMasks P t))) = 0) as Z.
  { intros p t. rewrite (vol_conc_imap _ _ (fun _ => 0)) by (intros; by vols). by apply total_zero. }
  apply vol_finished; unfold rr17bScripts; rewrite vol_two.
  - rewrite (perThread_zero _ (fun t => vol true (bReceiver P t))) by (intros t; unfold bReceiver; vols; by rewrite Z).
    rewrite (perThread_ext _ _ (fun t => bSet P * ((ceilSplit (bN P) (N.of_nat (bT P)) (N.of_nat t)).2 - (ceilSplit (bN P) (N.of_nat (bT P)) (N.of_nat t)).1) + said true (bChk P t))).
    2: { intros t _. unfold bSender. vols. unfold bMasks. rewrite pieces_mul by done. lia. }
    rewrite perThread_add, perThread_mul, ceil_sum by done. cbn. lia.
  - rewrite (perThread_zero _ (fun t => vol false (bSender P t))) by (intros t; unfold bSender; by vols).
    rewrite (perThread_ext _ _ (fun t => total (bCorrR P t) + said false (bChk P t))) by (intros t _; unfold bReceiver; vols; rewrite Z; lia).
    rewrite perThread_add. unfold bCorrR. rewrite perThread_ranges, even_sum by done. cbn. lia.
Qed.

(** ** GRR18 *)

Lemma sumN_app l1 l2 : sumN (l1 ++ l2) = sumN l1 + sumN l2.
Proof. apply total_app. Qed.
Lemma pieces_loads step fuel loads s e : 0 < step -> (N.to_nat (e - s) <= fuel)%nat ->
  total (map (fun p : N * N => sumN (take (N.to_nat p.2) (drop (N.to_nat p.1) loads))) (pieces step fuel s e)) = sumN (take (N.to_nat (e - s)) (drop (N.to_nat s) loads)).
Proof.
  intros Hs. revert s. induction fuel as [|f IH]; intros s Hf; cbn [pieces].
  - by replace (N.to_nat (e - s)) with 0%nat by lia.
  - destruct (N.ltb_spec s e) as [L|L]; [|by replace (N.to_nat (e - s)) with 0%nat by lia]. cbn [map fst snd]. rewrite total_cons, IH by lia.
    set (k := N.min step (e - s)). replace (N.to_nat (e - s)) with (N.to_nat k + N.to_nat (e - (s + k)))%nat by lia.
    rewrite <- (take_drop (N.to_nat k) (take (N.to_nat k + N.to_nat (e - (s + k))) (drop (N.to_nat s) loads))), sumN_app.
    rewrite take_take, skipn_firstn_comm, drop_drop. rewrite Nat.min_l by lia.
    replace (N.to_nat k + N.to_nat (e - (s + k)) - N.to_nat k)%nat with (N.to_nat (e - (s + k))) by lia. by replace (N.to_nat s + N.to_nat k)%nat with (N.to_nat (s + k)) by lia.
Qed.
Lemma loads_sum P loads : (0 < gT P)%nat -> 0 < gStep P -> gBins P * N.of_nat (gT P) < two64 -> length loads = N.to_nat (gBins P) ->
  perThread (gT P) (fun t => total (gCorr P loads t)) = sumN loads.
Proof.
  intros HT Hs H HL. set (f := fun t => sumN (take (N.to_nat (gBins P * N.of_nat t / N.of_nat (gT P))) loads)).
  assert (forall t, gBins P * N.of_nat t / N.of_nat (gT P) <= gBins P * N.of_nat (S t) / N.of_nat (gT P)) as Hm by (intros t; apply N.div_le_mono; nia).
  assert (forall t, f (S t) = f t + sumN (take (N.to_nat (gBins P * N.of_nat (S t) / N.of_nat (gT P) - gBins P * N.of_nat t / N.of_nat (gT P)))
                                    (drop (N.to_nat (gBins P * N.of_nat t / N.of_nat (gT P))) loads))) as Hf.
  { intros t. unfold f. specialize (Hm t). set (a := gBins P * N.of_nat t / N.of_nat (gT P)) in *. set (b := gBins P * N.of_nat (S t) / N.of_nat (gT P)) in *.
    rewrite <- sumN_app. f_equal. rewrite <- (take_drop (N.to_nat a) (take (N.to_nat b) loads)). rewrite take_take, skipn_firstn_comm. rewrite Nat.min_l by lia.
    by replace (N.to_nat b - N.to_nat a)%nat with (N.to_nat (b - a)) by lia. }
  rewrite (telescoped _ f).
  - unfold f. rewrite N.div_mul by lia. rewrite take_ge by (rewrite HL; lia). cbn [N.of_nat]. rewrite N.mul_0_r, N.div_0_l by lia. change (N.to_nat 0) with 0%nat. rewrite take_0. change (sumN []) with 0. lia.
  - intros t _. rewrite Hf. lia.
  - intros t Ht. unfold gCorr, piecesOf, gRange. rewrite pieces_loads by lia. unfold evenSplit. cbn [fst snd]. rewrite !N.mod_small by nia.
    replace (N.of_nat t + 1) with (N.of_nat (S t)) by lia. rewrite Hf. lia.
Qed.
Lemma grr18_traffic P : (0 < gT P)%nat -> 0 < gStep P -> gBins P * N.of_nat (gT P) < two64 -> gRows P * N.of_nat (gT P) < two64 ->
  length (gLoadsS P) = N.to_nat (gBins P) -> length (gLoadsR P) = N.to_nat (gBins P) ->
  sendsInAll (grr18Scripts P)
    (16 * N.of_nat (gT P) + gBins P + sumN (gLoadsS P) + gRows P * gMask P + perThread (gT P) (fun t => gFin P true t + gChal P true t + gProof P true t))
    (8 * N.of_nat (gT P) + gBins P + sumN (gLoadsR P) + perThread (gT P) (fun t => gFin P false t + gChal P false t + gProof P false t)).
Proof.
  intros HT Hs H HR HLS HLR. assert (forall t, total (gHead P t) = 8 + ((gRange P t).2 - (gRange P t).1)) as Hh by (intros t; unfold gHead; rewrite !total_cons; cbn; lia).
  apply vol_finished; unfold grr18Scripts; rewrite vol_two.
  - rewrite (perThread_zero _ (fun t => vol true (gReceiver P t))) by (intros t; unfold gReceiver; by vols).
    rewrite (perThread_ext _ _ (fun t => 16 + (((gRange P t).2 - (gRange P t).1) + (total (gCorr P (gLoadsS P) t) + (gMask P * ((evenSplit (gRows P) (N.of_nat (gT P)) (N.of_nat t)).2 - (evenSplit (gRows P) (N.of_nat (gT P)) (N.of_nat t)).1) +
      (gFin P true t + gChal P true t + gProof P true t)))))).
    2: { intros t _. unfold gSender. vols. rewrite Hh. unfold gMasks. rewrite pieces_mul by (apply N.neq_0_lt_0, N.pow_nonzero; lia). lia. }
    rewrite !(perThread_add (gT P)), perThread_const, perThread_mul, loads_sum, even_sum by done. unfold gRange. rewrite even_sum by done. cbn [map]. rewrite !total_cons. cbn. lia.
  - rewrite (perThread_zero _ (fun t => vol false (gSender P t))) by (intros t; unfold gSender; by vols).
    rewrite (perThread_ext _ _ (fun t => 8 + (((gRange P t).2 - (gRange P t).1) + (total (gCorr P (gLoadsR P) t) +
      (gFin P false t + gChal P false t + gProof P false t))))).
    2: { intros t _. unfold gReceiver. vols. rewrite Hh. lia. }
    rewrite !(perThread_add (gT P)), perThread_const, loads_sum by done. unfold gRange. rewrite even_sum by done. cbn [map]. rewrite !total_cons. cbn. lia.
Qed.
