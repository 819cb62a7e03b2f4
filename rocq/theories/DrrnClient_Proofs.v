(** Proofs about the client's queries in the PIR-PSI model, block size one. *)
From Verif Require Import Base Partition_Model CuckooIndex_Model Rr17_Model Rr17_Proofs Bgi_Model Bgi_Spec Bgi_Proofs Drrn_Model Drrn_Spec Drrn_Proofs DrrnMask_Proofs.

(** ** Lists *)

Lemma partition_perm (f : nat -> nat) (l : list nat) m : (forall q, q ∈ l -> (f q < m)%nat) ->
  concat (map (fun b => filter (fun q => f q = b) l) (seq 0 m)) ≡ₚ l.
Proof.
  induction l as [|q l IH]; intros H.
  - induction (seq 0 m) as [|b bs IHb]; [done|]. exact IHb.
  - assert (forall bs, NoDup bs -> concat (map (fun b => filter (fun q' => f q' = b) (q :: l)) bs) ≡ₚ
      (if decide (f q ∈ bs) then [q] else []) ++ concat (map (fun b => filter (fun q' => f q' = b) l) bs)) as G.
    { induction bs as [|b bs IHb]; intros ND; [done|]. apply NoDup_cons in ND as [Hn ND]. cbn [map concat]. rewrite (IHb ND). clear IHb IH H.
      destruct (decide (f q = b)) as [<-|NE].
      - rewrite (filter_cons_True (fun q' => f q' = f q)) by done. rewrite (decide_True (P := f q ∈ f q :: bs)) by left.
        rewrite (decide_False (P := f q ∈ bs)) by done. done.
      - rewrite (filter_cons_False (fun q' => f q' = b)) by done. rewrite !app_assoc. apply Permutation_app_tail. rewrite Permutation_app_comm. apply Permutation_app_tail.
        destruct (decide (f q ∈ bs)) as [I|I]; [rewrite decide_True by (by right); done|].
        rewrite decide_False; [done|]. rewrite elem_of_cons. intros [?|?]; [by apply NE|done]. }
    rewrite (G (seq 0 m) (NoDup_seq _ _)). rewrite decide_True by (apply elem_of_seq; specialize (H q ltac:(left)); lia).
    cbn [app]. constructor. apply IH. intros q' Hq'. apply H. by right.
Qed.

Lemma concat_pairs {A} (f : nat -> nat -> A) n H :
  concat (map (fun i => map (f i) (seq 0 H)) (seq 0 n)) = map (fun q => f (q / H)%nat (q mod H)%nat) (seq 0 (n * H)).
Proof.
  destruct H as [|H0]. { rewrite Nat.mul_0_r. cbn. induction (seq 0 n) as [|i l IH]; [done|]. exact IH. }
  set (H := S H0). induction n as [|n IH]; [done|]. rewrite seq_S, map_app, concat_app, IH. cbn [Nat.add map concat]. rewrite app_nil_r.
  replace (S n * H)%nat with (n * H + H)%nat by lia. rewrite seq_app, map_app. f_equal. cbn [Nat.add].
  rewrite <- (Nat.add_0_r (n * H)) at 1. rewrite <- (fmap_add_seq (n * H) 0 H). change (Nat.add (n * H) <$> seq 0 H) with (map (Nat.add (n * H)) (seq 0 H)).
  rewrite map_map. apply map_ext_in. intros j Hj. apply in_seq in Hj.
  rewrite (Nat.add_comm (n * H)), Nat.div_add, Nat.mod_add, Nat.div_small, Nat.mod_small by lia. done.
Qed.

Lemma filter_map_length {A B} (Q : B -> Prop) `{!forall x, Decision (Q x)} (f : A -> B) (l : list A) :
  length (filter Q (map f l)) = length (filter (fun x => Q (f x)) l).
Proof.
  induction l as [|x l IH]; [done|]. cbn [map]. destruct (decide (Q (f x))) as [D|D].
  - rewrite filter_cons_True by done. rewrite (filter_cons_True (fun x => Q (f x))) by done. cbn. by rewrite IH.
  - rewrite filter_cons_False by done. by rewrite (filter_cons_False (fun x => Q (f x))).
Qed.

(** ** The rows of the layout *)

Section rows.
Variable (p : dparams) (depth gs : nat) (E : nat -> nat -> qentry).

Fixpoint rowsOf (b : nat) (bins : list (list nat)) (d : nat) : list (list qentry) :=
  match bins with
  | [] => []
  | bin :: bins' => (map (E b) bin ++ map (dummyEntry depth gs) (seq d (dBin p - length bin))) :: rowsOf (S b) bins' (d + (dBin p - length bin))
  end.

Lemma layout_rows aes prng seed r inputs hs bins : forall b d,
  (forall k bin q, bins !! k = Some bin -> q ∈ bin -> realEntry p aes prng seed depth gs r inputs hs (b + k) q = Some (E (b + k) q)) ->
  layout p aes prng seed depth gs r inputs hs b bins d = Some (rowsOf b bins d).
Proof.
  induction bins as [|bin bins IH]; intros b d H; [done|]. cbn [layout rowsOf].
  rewrite (mapM_lookup _ bin (E b)). 2: { intros q Hq. pose proof (H 0%nat bin q eq_refl Hq) as G. by rewrite Nat.add_0_r in G. }
  rewrite IH; [done|]. intros k bin' q Hk Hq. pose proof (H (S k) bin' q Hk Hq) as G. by rewrite <- Nat.add_succ_comm in G.
Qed.

Lemma rowsOf_length bins : forall b d, length (rowsOf b bins d) = length bins.
Proof. induction bins as [|bin bins IH]; intros b d; [done|]. cbn. by rewrite IH. Qed.
Lemma rowsOf_lookup bins : forall b d k bin, bins !! k = Some bin ->
  exists d', rowsOf b bins d !! k = Some (map (E (b + k)) bin ++ map (dummyEntry depth gs) (seq d' (dBin p - length bin))).
Proof.
  induction bins as [|bin0 bins IH]; intros b d k bin Hk; [done|]. destruct k as [|k].
  - injection Hk as ->. exists d. rewrite Nat.add_0_r. done.
  - cbn in Hk. destruct (IH (S b) (d + (dBin p - length bin0))%nat k bin Hk) as [d' E']. exists d'. replace (b + S k)%nat with (S b + k)%nat by lia. exact E'.
Qed.
Lemma rowsOf_row bins : Forall (fun bin => (length bin <= dBin p)%nat) bins -> forall b d, Forall (fun row => length row = dBin p) (rowsOf b bins d).
Proof.
  induction 1 as [|bin bins HB HF IH]; intros b d; [constructor|]. cbn. constructor; [|apply IH]. rewrite app_length, !map_length, seq_length. lia.
Qed.
Lemma concat_cap (bins : list (list nat)) : Forall (fun bin => (length bin <= dBin p)%nat) bins -> (length (concat bins) <= length bins * dBin p)%nat.
Proof. induction 1 as [|bin bins HB HF IH]; [done|]. cbn [concat length]. rewrite app_length. lia. Qed.
Lemma rowsOf_pi bins : Forall (fun bin => (length bin <= dBin p)%nat) bins -> forall b d,
  (forall k bin q, bins !! k = Some bin -> q ∈ bin -> qPi (E (b + k) q) = N.of_nat q) ->
  N.of_nat (d + (length bins * dBin p - length (concat bins))) <= 2 ^ 32 ->
  map N.to_nat (map qPi (concat (rowsOf b bins d))) ≡ₚ concat bins ++ seq d (length bins * dBin p - length (concat bins)).
Proof.
  induction 1 as [|bin bins HB HF IH]; intros b d HE HL; [done|]. cbn [rowsOf concat]. cbn [length concat] in HL. rewrite app_length in HL.
  pose proof (concat_cap bins HF) as P2. set (rem := (dBin p - length bin)%nat). pose proof (IH (S b) (d + rem)%nat) as P1.
  assert (map N.to_nat (map qPi (concat (rowsOf (S b) bins (d + rem)))) ≡ₚ concat bins ++ seq (d + rem) (length bins * dBin p - length (concat bins))) as P1'.
  { apply P1; [|lia]. intros k bin' q Hk Hq. pose proof (HE (S k) bin' q Hk Hq) as G. by rewrite <- Nat.add_succ_comm in G. }
  rewrite !map_app. rewrite P1'. rewrite app_length.
  assert (map N.to_nat (map qPi (map (E b) bin)) = bin) as ->.
  { rewrite !map_map. rewrite <- (map_id bin) at 2. apply map_ext_in. intros q Hq. apply elem_of_list_In in Hq.
    pose proof (HE 0%nat bin q eq_refl Hq) as G. rewrite Nat.add_0_r in G. rewrite G. lia. }
  assert (map N.to_nat (map qPi (map (dummyEntry depth gs) (seq d rem))) = seq d rem) as ->.
  { rewrite !map_map. rewrite <- (map_id (seq d rem)) at 2. apply map_ext_in. intros q Hq. apply in_seq in Hq. unfold dummyEntry. cbn [qPi].
    rewrite N.mod_small; lia. }
  cbn [length]. replace (S (length bins) * dBin p - (length bin + length (concat bins)))%nat with (rem + (length bins * dBin p - length (concat bins)))%nat by lia.
  rewrite (seq_app rem). rewrite <- !app_assoc. apply Permutation_app_head. rewrite !app_assoc. apply Permutation_app_tail. apply Permutation_app_comm.
Qed.
End rows.

(** ** The client's layout *)

Lemma maskList_length mask P k : length (maskList mask P k) = P.
Proof. unfold maskList. by rewrite map_length, seq_length. Qed.
Lemma maskList_lookup mask P k i : (i < P)%nat -> maskList mask P k !! i = Some (mask (N.of_nat (k * P + i))).
Proof. intros H. unfold maskList. change (map ?f ?l) with (f <$> l). rewrite list_lookup_fmap, lookup_seq_lt by done. done. Qed.

Section sizes.
Variable (p : dparams).
Hypothesis Hsz : sizesOk p.
Definition loOf (b : nat) : N := (regionBounds (dSlots p) (N.of_nat (dS p)) 1 (N.of_nat b)).1.
Definition hiOf (b : nat) : N := (regionBounds (dSlots p) (N.of_nat (dS p)) 1 (N.of_nat b)).2.
Lemma mul_bound a b t : a < t -> b < t -> b * a + b < t * t.
Proof. intros A B. nia. Qed.
Lemma regions_small : N.of_nat (dS p) < 2 ^ 32.
Proof using All. destruct Hsz as (_ & _ & HS & HB & HSl & HP). nia. Qed.
Lemma regions_bound : N.of_nat (dS p) * dSlots p + N.of_nat (dS p) < two64.
Proof using All. change two64 with (2 ^ 32 * 2 ^ 32). apply mul_bound; [destruct Hsz as (_ & _ & _ & _ & HSl & _); lia|apply regions_small]. Qed.
Lemma region_bound b : (b < dS p)%nat -> (N.of_nat b + 1) * dSlots p + N.of_nat (dS p) <= two64.
Proof using All. intros Hb. pose proof regions_bound. assert ((N.of_nat b + 1) * dSlots p <= N.of_nat (dS p) * dSlots p) by (apply N.mul_le_mono_r; lia). lia. Qed.

Lemma region_slots b x : (b < dS p)%nat -> loOf b <= x < hiOf b <-> inRegion (dSlots p) (N.of_nat (dS p)) (N.of_nat b) x.
Proof using All. intros Hb. apply bounds_iff; [destruct Hsz as (_ & _ & HS & _); lia|by apply region_bound]. Qed.
Lemma hi_le b : (b < dS p)%nat -> hiOf b <= dSlots p.
Proof using All.
  intros Hb. unfold hiOf, regionBounds. cbn [snd]. rewrite roundUpTo_1. pose proof (region_bound b Hb). rewrite N.mod_small by (destruct Hsz as (_ & _ & HS & _); lia).
  apply divCeil_le; [destruct Hsz as (_ & _ & HS & _); lia|lia|]. rewrite (N.mul_comm (dSlots p)). apply N.mul_le_mono_r. lia.
Qed.

End sizes.

Section client.
Variable (p : dparams) (enc : N -> N) (aes : bool -> N -> N) (prng : N -> N * N) (c : dchoices) (inputs : list N).
Hypothesis Hsz : sizesOk p.
Hypothesis Hlen : length inputs = dN p.
Hypothesis Hfit : queriesFit enc p inputs.

Definition hashes : list N := map (fun x => N.lxor (enc x) x) inputs.
Definition itemOf (q : nat) : N := default 0 (inputs !! (q / dH p)%nat).
Definition slotQ (q : nat) : N := itemSlot enc (dSlots p) (itemOf q) (q mod dH p).
Definition regQ (q : nat) : nat := N.to_nat (regionOf (dSlots p) (N.of_nat (dS p)) (slotQ q)).
Definition binQ (b : nat) : list nat := filter (fun q => regQ q = b) (seq 0 (dN p * dH p)).

Lemma slotQ_lt q : slotQ q < dSlots p.
Proof using All. unfold slotQ, itemSlot. apply N.mod_lt. destruct Hsz as (_ & _ & _ & _ & HSl & _). lia. Qed.
Lemma slotQ_mul q : slotQ q * N.of_nat (dS p) < two64.
Proof using All.
  pose proof (regions_bound p Hsz). pose proof (slotQ_lt q). assert (slotQ q * N.of_nat (dS p) <= dSlots p * N.of_nat (dS p)) by (apply N.mul_le_mono_r; lia). lia.
Qed.
Lemma regQ_iff q b : regQ q = b <-> inRegion (dSlots p) (N.of_nat (dS p)) (N.of_nat b) (slotQ q).
Proof using All.
  rewrite <- region_iff; [|destruct Hsz as (_ & _ & _ & _ & HSl & _); lia|apply slotQ_mul]. unfold regQ. split; intros E; lia.
Qed.
Lemma regQ_lt q : (regQ q < dS p)%nat.
Proof using All.
  pose proof (proj1 (regQ_iff q (regQ q)) eq_refl) as [A B]. pose proof (slotQ_lt q) as C. assert (slotQ q * N.of_nat (dS p) < dSlots p * N.of_nat (dS p)).
  { apply N.mul_lt_mono_pos_r; [destruct Hsz as (_ & _ & HS & _); lia|done]. }
  assert (N.of_nat (regQ q) * dSlots p < N.of_nat (dS p) * dSlots p) as M by lia. apply N.mul_lt_mono_pos_r in M; [lia|]. destruct Hsz as (_ & _ & _ & _ & HSl & _); lia.
Qed.
Lemma querySlots_map : querySlots enc p inputs = map slotQ (seq 0 (dN p * dH p)).
Proof using All.
  unfold querySlots, slotQ. assert (inputs = map (fun i => default 0 (inputs !! i)) (seq 0 (dN p))) as E.
  { rewrite <- Hlen. apply list_eq. intros i. change (map ?f ?l) with (f <$> l). rewrite list_lookup_fmap. destruct (decide (i < length inputs)%nat) as [L|L].
    - rewrite lookup_seq_lt by done. cbn. destruct (lookup_lt_is_Some_2 inputs i L) as [x Hx]. by rewrite Hx.
    - rewrite lookup_seq_ge by lia. cbn. apply lookup_ge_None. lia. }
  rewrite E at 1. rewrite map_map. apply (concat_pairs (fun i j => itemSlot enc (dSlots p) (default 0 (inputs !! i)) j)).
Qed.
Lemma binQ_length b : (length (binQ b) <= dBin p)%nat.
Proof using All.
  pose proof (Hfit (N.of_nat b)) as HF. rewrite querySlots_map in HF. rewrite filter_map_length in HF. unfold binQ.
  erewrite (list_filter_iff (fun q => regQ q = b)); [exact HF|]. intros q. apply regQ_iff.
Qed.

Lemma slotOf_ok q : (q < dN p * dH p)%nat -> slotOf p hashes (q / dH p) (q mod dH p) = Some (slotQ q).
Proof using All.
  intros Hq. destruct Hsz as (_ & HH & _ & _ & HSl & _). assert (q / dH p < dN p)%nat as Hi by (apply Nat.div_lt_upper_bound; lia).
  assert (q mod dH p < dH p)%nat as Hj by (apply Nat.mod_upper_bound; lia).
  unfold slotOf, hashes, slotQ, itemOf. destruct (lookup_lt_is_Some_2 inputs (q / dH p)%nat ltac:(lia)) as [x Hx].
  change (map ?f inputs) with (f <$> inputs). rewrite list_lookup_fmap, Hx. cbn [fmap option_fmap option_map default]. change (default 0 (Some x)) with x.
  unfold getHash, itemSlot. rewrite (proj2 (N.eqb_neq _ _)) by lia. rewrite (proj2 (N.ltb_ge _ _)) by lia. done.
Qed.

Lemma clientBins_ok : clientBins p hashes = Some (map binQ (seq 0 (dS p))).
Proof using All.
  unfold clientBins. rewrite (mapM_lookup _ _ regQ). 2: { intros q Hq. apply elem_of_seq in Hq. rewrite slotOf_ok by lia. done. }
  set (addrs := map regQ (seq 0 (dN p * dH p))). assert (length addrs = dN p * dH p)%nat as La by (subst addrs; by rewrite map_length, seq_length).
  assert (forall b (l : list nat), (forall q, q ∈ l -> (q < dN p * dH p)%nat) -> filter (fun i => addrs !! i = Some b) l = filter (fun q => regQ q = b) l) as Hf.
  { intros b l Hl. induction l as [|q l IH]; [done|]. assert (addrs !! q = Some (regQ q)) as Eq.
    { subst addrs. change (map ?f ?l) with (f <$> l). rewrite list_lookup_fmap, lookup_seq_lt by (apply Hl; left). done. }
    destruct (decide (regQ q = b)) as [D|D].
    - rewrite (filter_cons_True (fun q => regQ q = b)), (filter_cons_True (fun i => addrs !! i = Some b)) by (rewrite ?Eq; congruence).
      rewrite IH; [done|]. intros q' Hq'. apply Hl. by right.
    - rewrite (filter_cons_False (fun q => regQ q = b)), (filter_cons_False (fun i => addrs !! i = Some b)) by (rewrite ?Eq; congruence).
      rewrite IH; [done|]. intros q' Hq'. apply Hl. by right. }
  destruct (fillBins_ok (dBin p) addrs (seq 0 (dN p * dH p)) (dS p)) as (bins & Eb & Lb & Kb).
  - by rewrite La.
  - intros b Hb. subst addrs. apply elem_of_list_fmap in Hb as (q & -> & _). apply regQ_lt.
  - intros b. rewrite La, Hf by (intros q Hq; apply elem_of_seq in Hq; lia). apply binQ_length.
  - rewrite Eb. f_equal. apply list_eq. intros b. change (map ?f ?l) with (f <$> l). rewrite list_lookup_fmap. destruct (decide (b < dS p)%nat) as [L|L].
    + rewrite Kb by done. rewrite lookup_seq_lt by done. cbn. f_equal. rewrite Hf by (intros q Hq; apply elem_of_seq in Hq; lia). done.
    + rewrite lookup_seq_ge by lia. cbn. apply lookup_ge_None. lia.
Qed.

Lemma total_fits : (dN p * dH p <= dS p * dBin p)%nat.
Proof using All.
  pose proof (partition_perm regQ (seq 0 (dN p * dH p)) (dS p) (fun q _ => regQ_lt q)) as HP. apply Permutation_length in HP. rewrite seq_length in HP.
  change (length (concat (map binQ (seq 0 (dS p)))) = (dN p * dH p)%nat) in HP. rewrite <- HP.
  assert (forall l, (length (concat (map binQ l)) <= length l * dBin p)%nat) as G.
  { induction l as [|b l IH]; [done|]. cbn [map concat]. rewrite app_length. pose proof (binQ_length b). cbn [length]. lia. }
  specialize (G (seq 0 (dS p))). by rewrite seq_length in G.
Qed.

Variable (D G : N).
Hypothesis HDG : domainParams (dSlots p) (N.of_nat (dS p)) 1 = Done (D, G).

Definition keysQ (b q : nat) : keyPair :=
  match keyGen aes prng (N.to_nat D) (N.to_nat G) (slotQ q - loOf p b) (cSeed c q) with Done k => k | _ => ([], [], [], []) end.
Definition entQ (b q : nat) : qentry :=
  mkQ (N.of_nat q) (Some ((q / dH p)%nat, N.lxor (cMask c (N.of_nat q)) (itemOf q)))
    ((keysQ b q).1.1.1, (keysQ b q).1.1.2) ((keysQ b q).1.2, (keysQ b q).2).

Lemma realEntry_ok b q : (0 < G) -> (b < dS p)%nat -> q ∈ binQ b ->
  realEntry p aes prng (cSeed c) (N.to_nat D) (N.to_nat G) (maskList (cMask c) (permSize p) 0) inputs hashes b q = Some (entQ b q).
Proof using All.
  intros HG Hb Hq. unfold binQ in Hq. apply elem_of_list_filter in Hq as [Hr Hq]. apply elem_of_seq in Hq.
  destruct Hsz as (HB & HH & HS & _ & HSl & HP32). assert (q / dH p < dN p)%nat as Hi by (apply Nat.div_lt_upper_bound; lia).
  pose proof total_fits as TF. unfold realEntry. rewrite slotOf_ok by lia. unfold entQ, itemOf.
  destruct (lookup_lt_is_Some_2 inputs (q / dH p)%nat ltac:(lia)) as [x Hx]. rewrite Hx. change (default 0 (Some x)) with x.
  apply regQ_iff in Hr. apply (region_slots p Hsz) in Hr as [Hlo Hhi]; [|done].
  pose proof (region_bound p Hsz b Hb) as RB. rewrite HB. unfold queryPosition. change (N.of_nat 1) with 1.
  rewrite binOffset_lo by lia. change ((regionBounds (dSlots p) (N.of_nat (dS p)) 1 (N.of_nat b)).1) with (loOf p b).
  pose proof (slotQ_lt q) as SL. assert (dSlots p < two64) by (change two64 with (2 ^ 32 * 2 ^ 32); lia).
  replace (slotQ q + two64 - loOf p b) with (slotQ q - loOf p b + 1 * two64) by lia. rewrite N.mod_add by done. rewrite (N.mod_small (slotQ q - loOf p b)) by lia.
  rewrite N.div_1_r, N.mod_1_r. rewrite Nat.mul_1_r.
  replace (q / dH p * dH p + q mod dH p)%nat with q by (pose proof (Nat.div_mod q (dH p) ltac:(lia)); lia).
  rewrite N.add_0_r. rewrite (N.mod_small (N.of_nat q)) by lia.
  destruct (keyGen_ok aes prng (N.to_nat D) (N.to_nat G) (slotQ q - loOf p b) (cSeed c q) ltac:(lia)) as (s0 & s1 & cws & g & Ek & _).
  unfold keysQ. rewrite Ek. cbn [fst snd].
  assert (readN (maskList (cMask c) (permSize p) 0) (N.of_nat q) = Some (cMask c (N.of_nat q))) as ->.
  { apply readN_Some. rewrite Nat2N.id. rewrite maskList_lookup; [done|]. unfold permSize. rewrite HB. lia. }
  done.
Qed.

Definition rowsQ : list (list qentry) := rowsOf p (N.to_nat D) (N.to_nat G) entQ 0 (map binQ (seq 0 (dS p))) (dN p * dH p).

Lemma binQ_lookup k bin : map binQ (seq 0 (dS p)) !! k = Some bin -> bin = binQ k /\ (k < dS p)%nat.
Proof.
  intros Hk. change (map ?f ?l) with (f <$> l) in Hk. rewrite list_lookup_fmap in Hk. destruct (decide (k < dS p)%nat) as [L|L].
  - rewrite lookup_seq_lt in Hk by done. cbn in Hk. injection Hk as <-. done.
  - rewrite lookup_seq_ge in Hk by lia. discriminate.
Qed.

Lemma clientLayout_ok : 0 < G -> clientLayout p enc aes prng c inputs = Some rowsQ.
Proof using All.
  intros HG. unfold clientLayout. rewrite Hlen, Nat.eqb_refl. cbn [negb]. fold hashes. destruct Hsz as (HB & _). rewrite HB. change (N.of_nat 1) with 1.
  rewrite HDG, clientBins_ok. apply layout_rows. intros k bin q Hk Hq. rewrite Nat.add_0_l. apply binQ_lookup in Hk as [-> Hk]. by apply realEntry_ok.
Qed.

Lemma bins_cap : Forall (fun bin => (length bin <= dBin p)%nat) (map binQ (seq 0 (dS p))).
Proof using All. apply Forall_forall. intros bin Hb. apply elem_of_list_fmap in Hb as (b & -> & _). apply binQ_length. Qed.
Lemma rowsQ_length : length rowsQ = dS p.
Proof. unfold rowsQ. rewrite rowsOf_length, map_length. apply seq_length. Qed.
Lemma rowsQ_row : Forall (fun row => length row = dBin p) rowsQ.
Proof using All. apply rowsOf_row, bins_cap. Qed.
Lemma rowsQ_lookup b : (b < dS p)%nat -> exists d', rowsQ !! b = Some (map (entQ b) (binQ b) ++ map (dummyEntry (N.to_nat D) (N.to_nat G)) (seq d' (dBin p - length (binQ b)))).
Proof.
  intros Hb. unfold rowsQ. apply (rowsOf_lookup p _ _ entQ _ 0 _ b (binQ b)). change (map ?f ?l) with (f <$> l). rewrite list_lookup_fmap, lookup_seq_lt by done. done.
Qed.

Lemma pi_perm : piOf p rowsQ ≡ₚ seq 0 (permSize p).
Proof using All.
  destruct Hsz as (HB & HH & HS & _ & HSl & HP32). pose proof total_fits as TF.
  pose proof (partition_perm regQ (seq 0 (dN p * dH p)) (dS p) (fun q _ => regQ_lt q)) as HP.
  change (concat (map binQ (seq 0 (dS p))) ≡ₚ seq 0 (dN p * dH p)) in HP.
  pose proof (rowsOf_pi p (N.to_nat D) (N.to_nat G) entQ (map binQ (seq 0 (dS p))) bins_cap 0 (dN p * dH p)) as P1.
  rewrite map_length, seq_length, (Permutation_length HP), seq_length in P1.
  unfold piOf, permSize. rewrite HB, Nat.mul_1_r, Nat.sub_diag. cbn [replicate]. rewrite app_nil_r. unfold rowsQ. rewrite P1.
  - rewrite HP. rewrite <- (seq_app (dN p * dH p) _ 0). replace (dN p * dH p + (dS p * dBin p - dN p * dH p))%nat with (dS p * dBin p)%nat by lia. done.
  - intros k bin q _ _. done.
  - lia.
Qed.
End client.
