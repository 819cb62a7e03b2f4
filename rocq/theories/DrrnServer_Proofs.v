(** Proofs about the servers' table and shares and about complete runs of the PIR-PSI model, block size one. *)
From Verif Require Import Base Partition_Model CuckooIndex_Model Rr17_Model Rr17_Proofs Bgi_Model Bgi_Spec Bgi_Proofs BgiFull_Proofs Drrn_Model Drrn_Spec
  Drrn_Proofs DrrnMask_Proofs DrrnClient_Proofs.

Local Notation key := (list N * list N)%type.

(** ** The table *)

Lemma isEmpty_iff w : isEmpty w = true <-> w = emptyWord.
Proof. unfold isEmpty. apply N.eqb_eq. Qed.

Lemma tableFrom_ok (inputs bins : list N) : forall i, (forall w, w ∈ bins -> w ≠ emptyWord -> (N.to_nat (wordIdx w) < length inputs)%nat) ->
  i + N.of_nat (length bins) <= 2 ^ 32 ->
  exists l, tableFrom i bins inputs = Some l /\ length l = length (filter (fun w => w ≠ emptyWord) bins) /\ sortedTable l /\
    (forall e, e ∈ l -> i <= e.2) /\
    (forall e, e ∈ l <-> exists c w x, bins !! c = Some w /\ w ≠ emptyWord /\ inputs !! N.to_nat (wordIdx w) = Some x /\ e = (x, i + N.of_nat c)).
Proof.
  induction bins as [|w bins IH]; intros i Hin Hb.
  - exists []. split; [done|]. split; [done|]. split; [constructor|]. split; [intros e He; by apply elem_of_nil in He|].
    intros e. split; [intros He; by apply elem_of_nil in He|]. intros (c & w & x & Hc & _). by rewrite lookup_nil in Hc.
  - cbn [length] in Hb. destruct (IH (i + 1)) as (l & El & Ll & Sl & Bl & Kl); [intros w' Hw'; apply Hin; by right|lia|].
    assert (forall e, (exists c w' x, bins !! c = Some w' /\ w' ≠ emptyWord /\ inputs !! N.to_nat (wordIdx w') = Some x /\ e = (x, i + 1 + N.of_nat c)) <->
      (exists c w' x, (w :: bins) !! S c = Some w' /\ w' ≠ emptyWord /\ inputs !! N.to_nat (wordIdx w') = Some x /\ e = (x, i + N.of_nat (S c)))) as HK.
    { intros e. split; intros (c & w' & x & H1 & H2 & H3 & H4); exists c, w', x; (split; [done|]); (split; [done|]); (split; [done|]); rewrite H4; f_equal; lia. }
    cbn [tableFrom]. rewrite El. destruct (decide (w = emptyWord)) as [Hw|Hw].
    + rewrite (proj2 (isEmpty_iff w) Hw). exists l. rewrite filter_cons_False by (by intros NE). split; [done|]. split; [done|]. split; [done|].
      split; [intros e He; specialize (Bl e He); lia|]. intros e. rewrite Kl, HK. split.
      * intros (c & w' & x & ?). by exists (S c), w', x.
      * intros ([|c] & w' & x & H1 & H2 & H3). { cbn in H1. injection H1 as <-. done. } by exists c, w', x.
    + assert (isEmpty w = false) as -> by (destruct (isEmpty w) eqn:EE; [by apply isEmpty_iff in EE|done]).
      destruct (lookup_lt_is_Some_2 inputs (N.to_nat (wordIdx w)) (Hin w ltac:(left) Hw)) as [v Hv].
      assert (readN inputs (wordIdx w) = Some v) as -> by by apply readN_Some. rewrite N.mod_small by lia.
      exists ((v, i) :: l). split; [done|]. rewrite filter_cons_True by done. split; [cbn [length]; by rewrite Ll|].
      split. { constructor; [done|]. apply Forall_forall. intros e He. specialize (Bl e He). cbn [snd]. lia. }
      split. { intros e He. apply elem_of_cons in He as [->|He]; [done|]. specialize (Bl e He). lia. }
      intros e. rewrite elem_of_cons, Kl, HK. split.
      * intros [->|(c & w' & x & ?)]; [|by exists (S c), w', x]. exists 0%nat, w, v. split; [done|]. split; [done|]. split; [done|]. f_equal. lia.
      * intros ([|c] & w' & x & H1 & H2 & H3 & H4); [left|right; by exists c, w', x]. cbn in H1. injection H1 as <-. rewrite Hv in H3. injection H3 as <-.
        rewrite H4. f_equal. lia.
Qed.

Lemma tableOf_ok enc p serverSet bins : tableOk enc p serverSet bins -> dSlots p < 2 ^ 32 ->
  exists data, tableOf bins serverSet = Some data /\ sortedTable data /\
    (forall e, e ∈ data <-> exists c w, bins !! c = Some w /\ w ≠ emptyWord /\ serverSet !! N.to_nat (wordIdx w) = Some e.1 /\ e.2 = N.of_nat c).
Proof.
  intros (HL & HP & _) HS. destruct (tableFrom_ok serverSet bins 0) as (l & El & Ll & Sl & _ & Kl).
  - intros w Hw Hne. assert (N.to_nat (wordIdx w) ∈ seq 0 (length serverSet)) as Hin.
    { rewrite <- HP. apply elem_of_list_fmap. exists w. split; [done|]. by apply elem_of_list_filter. } apply elem_of_seq in Hin. lia.
  - lia.
  - exists l. unfold tableOf. rewrite El. assert (length l = length serverSet) as ->.
    { rewrite Ll. apply Permutation_length in HP. rewrite map_length, seq_length in HP. done. }
    rewrite Nat.eqb_refl. split; [done|]. split; [done|]. intros [v s]. rewrite Kl. cbn [fst snd]. split.
    + intros (c & w & x & H1 & H2 & H3 & H4). injection H4 as -> ->. exists c, w. split; [done|]. split; [done|]. split; [done|]. lia.
    + intros (c & w & H1 & H2 & H3 & ->). exists c, w, v. split; [done|]. split; [done|]. split; [done|]. f_equal.
Qed.

(** ** Selecting *)

Lemma selectItems_xor f g lo items : N.lxor (selectItems f lo items) (selectItems g lo items) = selectItems (fun x => xorb (f x) (g x)) lo items.
Proof.
  induction items as [|e items IH]; [done|]. rewrite !selectItems_cons, <- IH.
  generalize (selectItems f lo items), (selectItems g lo items). intros a b.
  apply N.bits_inj. intros i. destruct (f (e.2 - lo)), (g (e.2 - lo)); cbn [xorb]; rewrite !N.lxor_spec, ?N.bits_0;
    by destruct (N.testbit e.1 i), (N.testbit a i), (N.testbit b i).
Qed.
Lemma selectItems_ext f g lo items : (forall e, e ∈ items -> f (e.2 - lo) = g (e.2 - lo)) -> selectItems f lo items = selectItems g lo items.
Proof.
  induction items as [|e items IH]; intros H; [done|]. rewrite !selectItems_cons. rewrite (H e) by left. rewrite IH; [done|]. intros e' He'. apply H. by right.
Qed.
Lemma selectItems_zero f lo items : (forall e, e ∈ items -> f (e.2 - lo) = false) -> selectItems f lo items = 0.
Proof.
  induction items as [|e items IH]; intros H; [done|]. rewrite selectItems_cons. rewrite (H e) by left. rewrite N.lxor_0_l. apply IH. intros e' He'. apply H. by right.
Qed.
Lemma selectItems_point idx lo items : sortedTable items -> (forall e, e ∈ items -> lo <= e.2) ->
  (exists e, e ∈ items /\ e.2 = lo + idx /\ selectItems (fun x => x =? idx) lo items = e.1) \/
  ((forall e, e ∈ items -> e.2 ≠ lo + idx) /\ selectItems (fun x => x =? idx) lo items = 0).
Proof.
  intros HS. induction HS as [|e items HS IH HF]; intros HL.
  - right. split; [|done]. intros e He. by apply elem_of_nil in He.
  - rewrite selectItems_cons. pose proof (HL e ltac:(left)) as He. destruct (N.eqb_spec (e.2 - lo) idx) as [E|E].
    + left. exists e. split; [left|]. split; [lia|]. rewrite selectItems_zero; [apply N.lxor_0_r|]. intros e' He'. rewrite Forall_forall in HF.
      specialize (HF e' He'). cbn in HF. apply N.eqb_neq. lia.
    + rewrite N.lxor_0_l. destruct IH as [(e' & H1 & H2 & H3)|[H1 H2]]; [intros e' He'; apply HL; by right| |].
      * left. exists e'. split; [by right|]. done.
      * right. split; [|done]. intros e' He'. apply elem_of_cons in He' as [->|He']; [lia|by apply H1].
Qed.

(** ** The shares of a server *)

Section server.
Variable (p : dparams) (aes : bool -> N -> N) (data : list (N * N)) (D G : N).
Hypothesis Hsz : sizesOk p.
Hypothesis HDG : domainParams (dSlots p) (N.of_nat (dS p)) 1 = Done (D, G).
Hypothesis Hsort : sortedTable data.

Definition itemsOf (b : nat) : list (N * N) := filter (fun e : N * N => loOf p b <= e.2 /\ e.2 < hiOf p b) data.
Definition firstOf (b : nat) : N := match itemsOf b with e :: _ => e.2 | [] => loOf p b end.
Definition shareOf (b : nat) (kg : key) : N := selectItems (keyBit aes kg) (firstOf b) (itemsOf b).

Lemma domain_facts : 0 < G <= 8 /\ slotsPerBin (dSlots p) (N.of_nat (dS p)) <= domainSize (N.to_nat D) (N.to_nat G) /\ D < 2 ^ 64.
Proof using All.
  destruct Hsz as (_ & _ & HS & HB & HSl & HP). assert (N.of_nat (dS p) < 2 ^ 32) as HS32 by nia.
  change (2 ^ 32) with (2 * 2 ^ 31) in HS32.
  destruct (domain_ok (dSlots p) (N.of_nat (dS p)) 1) as (d & g & E & H1 & H2 & H3).
  - lia.
  - lia.
  - change two64 with (2 ^ 31 * 2 ^ 33). change (2 ^ 33) with (4 * 2 ^ 31). set (t := 2 ^ 31) in *. assert (100 < t) by (subst t; reflexivity). clearbody t. nia.
  - change two64 with (2 ^ 31 * 2 ^ 33). change (2 ^ 33) with (4 * 2 ^ 31). set (t := 2 ^ 31) in *. assert (1000 < t) by (subst t; reflexivity). clearbody t. nia.
  - rewrite HDG in E. injection E as -> ->. split; [done|]. split.
    + unfold domainSize. rewrite !N2Nat.id. lia.
    + assert (2 ^ d < 2 ^ 32) as L. { change (2 ^ 32) with (2 * 2 ^ 31). set (t := 2 ^ 31) in *. assert (100 < t) by (subst t; reflexivity). clearbody t. lia. }
      apply N.pow_lt_mono_r_iff in L; [|lia]. change (2 ^ 64) with 18446744073709551616. lia.
Qed.
Lemma lo_hi b : (b < dS p)%nat -> loOf p b <= hiOf p b /\ hiOf p b <= loOf p b + slotsPerBin (dSlots p) (N.of_nat (dS p)).
Proof using All.
  intros Hb. pose proof (region_bound p Hsz b Hb) as RB. pose proof (regions_bound p Hsz) as RB2. destruct Hsz as (_ & _ & HS & HB & HSl & HP).
  assert (dSlots p + N.of_nat (dS p) < two64) as HT.
  { assert (1 * dSlots p <= N.of_nat (dS p) * dSlots p) by (apply N.mul_le_mono_r; lia). lia. }
  destruct (region_size (dSlots p) (N.of_nat (dS p)) (N.of_nat b) ltac:(lia) RB HT) as [A B].
  unfold loOf, hiOf, regionBounds. cbn [fst snd]. rewrite !roundUpTo_1. rewrite !(N.mod_small (_ * dSlots p)) by lia. done.
Qed.
Lemma itemsOf_in b e : e ∈ itemsOf b <-> e ∈ data /\ loOf p b <= e.2 < hiOf p b.
Proof using All. unfold itemsOf. rewrite elem_of_list_filter. tauto. Qed.
Lemma itemsOf_sorted b : sortedTable (itemsOf b).
Proof using All.
  unfold itemsOf. generalize Hsort. clear. intros HS. induction HS as [|x l HS IH HF]; [constructor|].
  destruct (decide (loOf p b <= x.2 /\ x.2 < hiOf p b)) as [A|A]; [rewrite filter_cons_True by done|by rewrite filter_cons_False].
  constructor; [exact IH|]. apply Forall_forall. intros y Hy. apply elem_of_list_filter in Hy as [_ Hy]. rewrite Forall_forall in HF. by apply HF.
Qed.
Lemma firstOf_le b e : e ∈ itemsOf b -> firstOf b <= e.2.
Proof using All.
  intros He. pose proof (itemsOf_sorted b) as HS. unfold firstOf. destruct (itemsOf b) as [|x l]; [by apply elem_of_nil in He|].
  apply elem_of_cons in He as [->|He]; [done|]. inversion HS as [|? ? _ HF]; subst. rewrite Forall_forall in HF. specialize (HF e He). cbn in HF. lia.
Qed.
Lemma firstOf_lo b : loOf p b <= firstOf b.
Proof using All.
  unfold firstOf. destruct (itemsOf b) as [|x l] eqn:E; [done|]. assert (x ∈ itemsOf b) as Hx by (rewrite E; left). apply itemsOf_in in Hx. lia.
Qed.

Lemma serverRegion_ok (keys : list (list key)) b ks rows : (b < dS p)%nat -> keys !! b = Some ks -> length ks = dBin p ->
  Forall (fun kg : key => length kg.1 = S (N.to_nat D) /\ length kg.2 = N.to_nat G) ks ->
  rows !! b = Some (replicate (dBin p * dB p) 0) ->
  serverRegion p aes keys data b rows = Some (<[b := map (shareOf b) ks]> rows).
Proof using All.
  intros Hb Hk Lk HK Hr. unfold serverRegion. destruct domain_facts as (HG & HDS & HD64). destruct (lo_hi b Hb) as [H1 H2].
  pose proof (hi_le p Hsz b Hb) as H3. destruct Hsz as (HB & _ & HS & HBin & HSl & HP). rewrite HB. change (N.of_nat 1) with 1.
  destruct (regionBounds (dSlots p) (N.of_nat (dS p)) 1 (N.of_nat b)) as [lo hi] eqn:ER.
  assert (lo = loOf p b) as -> by (unfold loOf; by rewrite ER). assert (hi = hiOf p b) as -> by (unfold hiOf; by rewrite ER).
  rewrite !find_ok by done. rewrite Hk, Hr. rewrite !Nat2N.id. rewrite sorted_range by done. fold (itemsOf b).
  rewrite HB, Nat.mul_1_r. rewrite (N.mod_small (hiOf p b - loOf p b)) by (change (2 ^ 32) with (2 * 2 ^ 31); lia).
  rewrite <- Lk. rewrite (evalBin_ok aes ks (itemsOf b) (N.to_nat D) (N.to_nat G) (firstOf b)); [done| | | |exact HK| | | | |].
  - intros ->. cbn in Lk. lia.
  - lia.
  - lia.
  - apply itemsOf_sorted.
  - apply Forall_forall. intros e He. pose proof (firstOf_le b e He). pose proof (firstOf_lo b). apply itemsOf_in in He as [_ He]. lia.
  - assert (firstOf b <= hiOf p b).
    { unfold firstOf. destruct (itemsOf b) as [|x l] eqn:E; [done|]. assert (x ∈ itemsOf b) as Hx by (rewrite E; left). apply itemsOf_in in Hx. lia. }
    change (2 ^ 32) with (2 * 2 ^ 31). lia.
  - unfold firstOf. by destruct (itemsOf b).
  - lia.
Qed.

Lemma serverRegions_ok (keys : list (list key)) (vals : nat -> list N) order : NoDup order ->
  forall rows, (forall b rows', b ∈ order -> rows' !! b = rows !! b -> serverRegion p aes keys data b rows' = Some (<[b := vals b]> rows')) ->
  exists rows', serverRegions p aes keys data order rows = Some rows' /\ length rows' = length rows /\
    forall b, rows' !! b = if decide (b ∈ order) then (if decide (b < length rows)%nat then Some (vals b) else None) else rows !! b.
Proof using.
  induction 1 as [|b order Hn ND IH]; intros rows HR; cbn [serverRegions].
  - exists rows. split; [done|]. split; [done|]. intros b. rewrite decide_False; [done|]. apply not_elem_of_nil.
  - rewrite (HR b rows ltac:(left) eq_refl). destruct (IH (<[b := vals b]> rows)) as (rows' & E & L & K).
    + intros b' rows' Hb' Hr. assert (b' ≠ b) by (intros ->; done). apply HR; [by right|]. rewrite Hr. by rewrite list_lookup_insert_ne.
    + rewrite insert_length in L. exists rows'. split; [done|]. split; [done|]. intros b'. rewrite K, insert_length. destruct (decide (b' = b)) as [->|NE].
      * rewrite decide_False by done. rewrite (decide_True (P := b ∈ b :: order)) by left. destruct (decide (b < length rows)%nat) as [Lb|Lb].
        -- by rewrite list_lookup_insert.
        -- apply lookup_ge_None. rewrite insert_length. lia.
      * rewrite list_lookup_insert_ne by done. destruct (decide (b' ∈ order)) as [I|I].
        -- rewrite (decide_True (P := b' ∈ b :: order)) by (by right). done.
        -- rewrite (decide_False (P := b' ∈ b :: order)); [done|]. rewrite elem_of_cons. by intros [?|?].
Qed.

Lemma serverShares_ok (keys : list (list key)) order : order ≡ₚ seq 0 (dS p) -> length keys = dS p ->
  Forall (fun ks => length ks = dBin p) keys ->
  Forall (Forall (fun kg : key => length kg.1 = S (N.to_nat D) /\ length kg.2 = N.to_nat G)) keys ->
  serverShares p aes keys data order = Some (concat (imap (fun b ks => map (shareOf b) ks) keys)).
Proof using All.
  intros HO HL HF HK. unfold serverShares.
  destruct (serverRegions_ok keys (fun b => map (shareOf b) (default [] (keys !! b))) order) with (rows := replicate (dS p) (replicate (dBin p * dB p) 0)) as (rows' & E & L & K).
  - rewrite HO. apply NoDup_seq.
  - intros b rows' Hb Hr. rewrite HO in Hb. apply elem_of_seq in Hb. destruct (lookup_lt_is_Some_2 keys b ltac:(lia)) as [ks Hks].
    rewrite (serverRegion_ok keys b ks rows'); [by rewrite Hks|lia|done| | |].
    + rewrite Forall_forall in HF. apply HF. by eapply elem_of_list_lookup_2.
    + rewrite Forall_forall in HK. apply HK. by eapply elem_of_list_lookup_2.
    + rewrite Hr. apply lookup_replicate_2. lia.
  - rewrite E. do 2 f_equal. rewrite replicate_length in *. apply list_eq. intros b. rewrite K, list_lookup_imap. destruct (decide (b ∈ order)) as [I|I].
    + rewrite HO in I. apply elem_of_seq in I. rewrite decide_True by lia. destruct (lookup_lt_is_Some_2 keys b ltac:(lia)) as [ks Hks]. by rewrite Hks.
    + assert (~ (b < dS p)%nat) as NI. { intros Lb. apply I. rewrite HO. apply elem_of_seq. lia. }
      rewrite (proj2 (lookup_ge_None keys b)) by lia. cbn. apply lookup_ge_None. rewrite replicate_length. lia.
Qed.
End server.
