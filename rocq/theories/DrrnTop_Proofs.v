(** The statements about PIR-PSI, assembled. *)
From Verif Require Import Base Partition_Model CuckooIndex_Model Rr17_Model Rr17_Proofs Bgi_Model Bgi_Spec Bgi_Proofs BgiFull_Proofs Drrn_Model Drrn_Spec
  Drrn_Proofs DrrnMask_Proofs DrrnClient_Proofs DrrnServer_Proofs DrrnRun_Proofs.

Local Notation key := (list N * list N)%type.

(** ** Partition and parameters *)

Lemma firstSlot_lo slots regions b : 0 < regions -> b * slots + regions <= two64 -> firstSlot slots regions b = (regionBounds slots regions 1 b).1.
Proof.
  intros Hr H. unfold regionBounds, divCeil, firstSlot. cbn [fst]. rewrite roundUpTo_1, (N.mod_small (b * slots)) by lia. rewrite N.mod_small by lia.
  f_equal. lia.
Qed.
Lemma inRegion_unique slots regions b b' c : inRegion slots regions b c -> inRegion slots regions b' c -> b' = b.
Proof.
  unfold inRegion. intros [H1 H2] [H3 H4]. destruct (N.lt_trichotomy b b') as [L|[L|L]]; [exfalso|done|exfalso].
  - assert ((b + 1) * slots <= b' * slots) by (apply N.mul_le_mono_r; lia). lia.
  - assert ((b' + 1) * slots <= b * slots) by (apply N.mul_le_mono_r; lia). lia.
Qed.
Lemma inRegion_lt slots regions b c : 0 < regions -> c < slots -> inRegion slots regions b c -> b < regions.
Proof.
  unfold inRegion. intros Hr H [H1 H2]. destruct (N.lt_ge_cases b regions) as [L|L]; [done|exfalso].
  assert (regions * slots <= b * slots) by (by apply N.mul_le_mono_r). assert (c * regions < slots * regions) by (by apply N.mul_lt_mono_pos_r). lia.
Qed.
Lemma firstSlot_least slots regions b c : 0 < regions -> firstSlot slots regions b <= c <-> b * slots <= c * regions.
Proof.
  intros Hr. unfold firstSlot. pose proof (N.div_mod (b * slots + (regions - 1)) regions ltac:(lia)) as E.
  pose proof (N.mod_lt (b * slots + (regions - 1)) regions ltac:(lia)) as L. set (q := (b * slots + (regions - 1)) / regions) in *. split; intros H; nia.
Qed.
Lemma firstSlot_in slots regions b c : 0 < regions -> inRegion slots regions b c ->
  inRegion slots regions b (firstSlot slots regions b) /\ forall c', inRegion slots regions b c' -> firstSlot slots regions b <= c'.
Proof.
  intros Hr Hc. assert (forall c', inRegion slots regions b c' -> firstSlot slots regions b <= c') as G.
  { intros c' Hc'. apply firstSlot_least; [done|]. by destruct Hc'. }
  split; [|exact G]. pose proof (G c Hc) as L. pose proof (proj1 (firstSlot_least slots regions b _ Hr) (N.le_refl (firstSlot slots regions b))) as L'.
  unfold inRegion in *. nia.
Qed.

Lemma slot_partition slots regions slot : 0 < regions -> slot < slots -> (slots + 1) * (regions + 1) + 128 <= two64 ->
  let b := regionOf slots regions slot in
  b < regions /\ inRegion slots regions b slot /\ (forall b', inRegion slots regions b' slot -> b' = b) /\
  (forall b', b' < regions -> (regionBounds slots regions 1 b').1 <= slot < (regionBounds slots regions 1 b').2 <-> b' = b) /\
  queryPosition slots regions 1 b slot = (slot - firstSlot slots regions b, 0) /\ firstSlot slots regions b <= slot /\
  (regionBounds slots regions 1 b).1 = firstSlot slots regions b /\
  exists d g, domainParams slots regions 1 = Done (d, g) /\ slot - firstSlot slots regions b < 2 ^ d * g * 128.
Proof.
  intros Hr Hs HW b. assert (slots * regions + slots + regions + 129 <= two64) as HW' by lia. clear HW.
  assert (slot * regions < two64) as W1 by nia. pose proof (proj1 (region_iff slots regions b slot ltac:(lia) W1) eq_refl) as HI.
  pose proof (inRegion_lt _ _ _ _ Hr Hs HI) as Hb. assert (b * slots + regions <= two64) as W2 by nia.
  assert (forall b', b' < regions -> (b' + 1) * slots + regions <= two64) as W3 by (intros b' Hb'; nia).
  destruct (firstSlot_in slots regions b slot Hr HI) as [HF HL]. pose proof (HL slot HI) as HL'.
  pose proof (firstSlot_lo slots regions b Hr W2) as E.
  split; [done|]. split; [done|]. split; [|split; [|split; [|split; [done|split; [done|]]]]].
  - intros b' H'. exact (inRegion_unique _ _ _ _ _ HI H').
  - intros b' Hb'. rewrite (bounds_iff slots regions b' slot Hr (W3 b' Hb')). split; [intros H'; exact (inRegion_unique _ _ _ _ _ HI H')|intros ->; done].
  - unfold queryPosition. rewrite (binOffset_lo slots regions b W2) by nia. rewrite <- E. rewrite N.div_1_r, N.mod_1_r. f_equal.
    replace (slot + two64 - firstSlot slots regions b) with (slot - firstSlot slots regions b + 1 * two64) by lia. rewrite N.mod_add by done.
    apply N.mod_small. assert (slots < two64) by nia. lia.
  - destruct (domain_ok slots regions 1 Hr ltac:(lia) ltac:(nia) ltac:(nia)) as (d & g & Ed & _ & Hg & _). exists d, g. split; [done|].
    destruct (slotsPerBin_ceil slots regions Hr ltac:(nia)) as (_ & P1 & P2). unfold inRegion in HI, HF.
    assert (slot - firstSlot slots regions b < slotsPerBin slots regions) by nia. lia.
Qed.

Lemma roundUpTo_mult n m B : 0 < B -> n <= m * B -> roundUpTo n B <= m * B.
Proof.
  intros HB H. unfold roundUpTo. pose proof (N.div_mod (n + B - 1) B ltac:(lia)) as E. pose proof (N.mod_lt (n + B - 1) B ltac:(lia)) as L.
  set (q := (n + B - 1) / B) in *.
  apply N.mul_le_mono_r. destruct (N.le_gt_cases q m) as [Q|Q]; [done|exfalso]. assert (B * (m + 1) <= B * q) by (apply N.mul_le_mono_l; lia). lia.
Qed.

Lemma domain_covers slots regions B : 0 < slots -> 0 < regions -> 0 < B -> (slots + 1) * (regions + 1) + B * 128 <= two64 ->
  exists d g, domainParams slots regions B = Done (d, g) /\ 0 < g <= 8 /\
    (forall b, b < regions -> (regionBounds slots regions B b).1 <= (regionBounds slots regions B b).2 /\
       (regionBounds slots regions B b).2 - (regionBounds slots regions B b).1 <= 2 ^ d * g * 128 * B) /\
    (forall slot, slot < slots -> (queryPosition slots regions B (regionOf slots regions slot) slot).1 < 2 ^ d * g * 128 /\
       (queryPosition slots regions B (regionOf slots regions slot) slot).2 < B).
Proof.
  intros H0 Hr HB HW. assert (slots * regions + slots + regions + 1 + B * 128 <= two64) as HW' by lia. clear HW.
  destruct (domain_ok slots regions B Hr HB ltac:(nia) ltac:(nia)) as (d & g & Ed & Hg & Hd & _). exists d, g. split; [done|]. split; [done|].
  set (n := 2 ^ d * g * 128) in *. clearbody n. destruct (slotsPerBin_ceil slots regions Hr ltac:(nia)) as (_ & P1 & P2). split.
  - intros b Hb. assert ((b + 1) * slots + regions <= two64) as W by nia. destruct (region_size slots regions b Hr W ltac:(nia)) as [R1 R2].
    unfold regionBounds. cbn [fst snd]. rewrite !(N.mod_small (_ * slots)) by nia. set (x := divCeil (b * slots) regions) in *. set (y := divCeil ((b + 1) * slots) regions) in *.
    clearbody x y. split.
    + unfold roundUpTo. apply N.mul_le_mono_r. apply N.div_le_mono; lia.
    + etrans; [apply (round_blocks x y B (slotsPerBin slots regions)); done|]. by apply roundUpTo_mult.
  - intros slot Hs. set (b := regionOf slots regions slot).
    assert (slot * regions < two64) as W1 by nia. pose proof (proj1 (region_iff slots regions b slot H0 W1) eq_refl) as HI.
    pose proof (inRegion_lt _ _ _ _ Hr Hs HI) as Hb. assert (b * slots + regions <= two64) as W2 by nia.
    destruct (firstSlot_in slots regions b slot Hr HI) as [HF HL]. pose proof (HL slot HI) as HL'.
    unfold queryPosition. rewrite (binOffset_lo slots regions b W2) by nia. rewrite <- (firstSlot_lo slots regions b Hr W2). cbn [fst snd].
    replace (slot + two64 - firstSlot slots regions b) with (slot - firstSlot slots regions b + 1 * two64) by lia. rewrite N.mod_add by done.
    rewrite N.mod_small by (assert (slots < two64) by nia; lia). split; [|apply N.mod_lt; lia].
    apply N.div_lt_upper_bound; [lia|]. unfold inRegion in HI, HF. assert (slot - firstSlot slots regions b < slotsPerBin slots regions) by nia. lia.
Qed.

(** ** The masks *)

Lemma masked_answers (H P : nat) (sigmas : list (list nat)) (pi pi1 : list nat) (r piS1 s sh0 sh1 : list N) :
  (0 < H)%nat -> Forall (fun sg => sg ≡ₚ seq 0 H) sigmas -> (length sigmas * H <= P)%nat -> pi1 ≡ₚ seq 0 P -> pi ≡ₚ seq 0 P ->
  length r = P -> length piS1 = P -> length s = P -> length sh0 = P -> length sh1 = P ->
  exists r' pi0 piS0 rs final, sigmaMasks 0 sigmas r = Some r' /\ clientPerm pi pi1 piS1 s = Some (pi0, piS0) /\ maskMessage pi1 r' s = Some rs /\
    server0Input sh0 (server1Message sh1 piS1) rs pi0 piS0 = Some final /\ length final = P /\
    (forall k, (k < length sigmas)%nat -> itemMasks H k r' ≡ₚ itemMasks H k r) /\
    (forall k, (length sigmas * H <= k)%nat -> r' !! k = r !! k) /\
    (forall i a b k m, sh0 !! i = Some a -> sh1 !! i = Some b -> pi !! i = Some k -> r' !! k = Some m -> final !! i = Some (N.lxor (N.lxor a b) m)) /\
    (forall i a b k j, sh0 !! i = Some a -> sh1 !! i = Some b -> pi !! i = Some (k * H + j)%nat -> (k < length sigmas)%nat -> (j < H)%nat ->
       exists m, m ∈ itemMasks H k r /\ final !! i = Some (N.lxor (N.lxor a b) m)).
Proof.
  intros H0 HS HL HP1 HP Lr L1 Ls L0 L1'. destruct (sigmaMasks_ok H sigmas H0 HS [] r) as (r' & Er & HB); [lia|]. cbn [app length] in Er.
  pose proof (blockPerm_length _ _ _ _ HB) as Lr'.
  destruct (final_ok P pi pi1 piS1 s r' sh0 sh1) as (pi0 & piS0 & rs & final & E1 & E2 & E3 & Lf & K); try done; try lia.
  { apply Forall_forall. intros k Hk. rewrite HP in Hk. apply elem_of_seq in Hk. lia. }
  { rewrite HP. apply seq_length. }
  exists r', pi0, piS0, rs, final. split; [done|]. split; [done|]. split; [done|]. split; [done|]. split; [done|]. split; [|split; [|split; [done|]]].
  - intros k Hk. by apply (blockPerm_item _ _ _ _ _ HB).
  - intros k Hk. by apply (blockPerm_rest _ _ _ _ _ HB).
  - intros i a b k j Ha Hb Hk Lk Lj. destruct (blockPerm_lookup H (length sigmas) r r' k j HB Lk Lj ltac:(lia)) as (j' & Hj' & E).
    destruct (lookup_lt_is_Some_2 r' (k * H + j)%nat) as [m Hm]; [rewrite Lr', Lr; nia|]. exists m. split; [|by apply (K i a b _ m Ha Hb Hk Hm)].
    rewrite Hm in E. apply elem_of_list_lookup. exists j'. unfold itemMasks. rewrite lookup_take, lookup_drop by done. done.
Qed.

(** ** Shares *)

Lemma itemsOf_region p data b : sizesOk p -> (b < dS p)%nat ->
  itemsOf p data b = filter (fun e : N * N => inRegion (dSlots p) (N.of_nat (dS p)) (N.of_nat b) e.2) data.
Proof.
  intros Hsz Hb. unfold itemsOf. apply list_filter_iff. intros e. rewrite <- (region_slots p Hsz b e.2 Hb). tauto.
Qed.
Lemma loOf_first p b : sizesOk p -> (b < dS p)%nat -> loOf p b = firstSlot (dSlots p) (N.of_nat (dS p)) (N.of_nat b).
Proof.
  intros Hsz Hb. unfold loOf. rewrite firstSlot_lo; [done|destruct Hsz; lia|]. pose proof (region_bound p Hsz b Hb) as R. lia.
Qed.

Lemma shares_spec p aes keys data order : sizesOk p -> sortedTable data -> keysOk p keys -> order ≡ₚ seq 0 (dS p) ->
  (forall b e, (b < dS p)%nat -> e ∈ data -> inRegion (dSlots p) (N.of_nat (dS p)) (N.of_nat b) e.2 ->
     exists v, (v, firstSlot (dSlots p) (N.of_nat (dS p)) (N.of_nat b)) ∈ data) ->
  serverShares p aes keys data order =
    Some (concat (imap (fun b ks => map (regionShare aes (dSlots p) (N.of_nat (dS p)) data (N.of_nat b)) ks) keys)).
Proof.
  intros Hsz HS (D & G & HDG & L1 & L2 & L3) HO HL. rewrite (serverShares_ok p aes data D G Hsz HDG HS keys order HO L1 L2 L3). f_equal. f_equal.
  apply imap_ext. intros b ks Hk. apply map_ext. intros kg. assert (b < dS p)%nat as Hb by (apply lookup_lt_Some in Hk; lia).
  unfold shareOf, regionShare. rewrite <- (itemsOf_region p data b Hsz Hb), <- (loOf_first p b Hsz Hb).
  destruct (itemsOf p data b) as [|e l] eqn:El; [done|]. rewrite <- El. f_equal. assert (e ∈ itemsOf p data b) as He by (rewrite El; left).
  pose proof He as He'. apply (itemsOf_in p aes data D G Hsz HDG HS) in He' as [Hd Hr]. destruct (HL b e Hb Hd) as [v Hv]; [by apply (region_slots p Hsz)|].
  pose proof (firstOf_lo p aes data D G Hsz HDG HS b) as F2. rewrite <- (loOf_first p b Hsz Hb) in Hv.
  assert ((v, loOf p b) ∈ itemsOf p data b) as Hm by (apply (itemsOf_in p aes data D G Hsz HDG HS); split; [done|cbn [snd]; lia]).
  pose proof (firstOf_le p aes data D G Hsz HDG HS b _ Hm) as F1. cbn [snd] in F1. lia.
Qed.

Lemma shares_order p aes keys data order : sizesOk p -> sortedTable data -> keysOk p keys -> order ≡ₚ seq 0 (dS p) ->
  exists sh, length sh = (dS p * dBin p)%nat /\ serverShares p aes keys data order = Some sh /\ serverShares p aes keys data (seq 0 (dS p)) = Some sh.
Proof.
  intros Hsz HS (D & G & HDG & L1 & L2 & L3) HO. eexists. split; [|split; [exact (serverShares_ok p aes data D G Hsz HDG HS keys order HO L1 L2 L3)|
    exact (serverShares_ok p aes data D G Hsz HDG HS keys _ (Permutation_refl _) L1 L2 L3)]].
  rewrite <- L1. clear HO L1 L3 HDG. revert L2. generalize (shareOf p aes data). induction keys as [|ks keys IH]; intros f L2; [done|].
  apply Forall_cons in L2 as [Lk L2]. cbn [imap concat length]. rewrite app_length, map_length, Lk. cbn [Nat.mul]. f_equal.
  exact (IH (fun b => f (S b)) L2).
Qed.

(** ** Complete runs *)

Lemma run_ok p enc aes prng c serverSet bins inputs : sizesOk p -> length inputs = dN p -> queriesFit enc p inputs -> choicesOk p c ->
  tableOk enc p serverSet bins ->
  exists out, drrn p enc aes prng c serverSet bins inputs = Some out /\ NoDup out /\
    (masksFresh p (cMask c) serverSet inputs -> 0 ∉ inputs -> forall i, i ∈ out -> exists x, inputs !! i = Some x /\ x ∈ serverSet) /\
    (regionsLead p bins -> forall i x, inputs !! i = Some x -> x ∈ serverSet -> i ∈ out).
Proof.
  intros Hsz Hlen Hfit Hch Htab.
  assert (dSlots p < 2 ^ 32) as W by (destruct Hsz as (_ & _ & _ & _ & HS & _); change (2 ^ 32) with (2 * 2 ^ 31); lia).
  destruct (tableOf_ok enc p serverSet bins Htab W) as (data & Hdata & Hsort & Hin).
  assert (exists D G, domainParams (dSlots p) (N.of_nat (dS p)) 1 = Done (D, G)) as (D & G & HDG).
  { destruct Hsz as (_ & _ & HS & HB & HSl & HP). assert (N.of_nat (dS p) < 2 ^ 32) by nia.
    destruct (domain_ok (dSlots p) (N.of_nat (dS p)) 1) as (D & G & E & _); [lia|lia|change two64 with (2 ^ 32 * 2 ^ 32); nia|change two64 with (2 ^ 32 * 2 ^ 32); nia|].
    by exists D, G. }
  destruct (drrn_values p enc aes prng c serverSet bins inputs Hsz Hlen Hfit Hch Htab D G data HDG Hdata Hsort Hin) as (final & r' & Ed & _).
  eexists. split; [exact Ed|]. split; [apply NoDup_remove_dups|]. split.
  - intros HM H0 i Hi. exact (drrn_sound p enc aes prng c serverSet bins inputs Hsz Hlen Hfit Hch Htab D G data HDG Hdata Hsort Hin _ i Ed HM H0 Hi).
  - intros HL i x Hx Hs. apply (drrn_complete p enc aes prng c serverSet bins inputs Hsz Hlen Hfit Hch Htab D G data HDG Hdata Hsort Hin _ i x Ed Hx Hs).
    intros k j Hk Hj (cc & w & Hc & Hw & Ek & Es). apply (lead_first p enc aes prng c serverSet bins inputs Hsz Hlen Hfit Hch Htab D G data HDG Hdata Hsort Hin); [done| |].
    + apply (regQ_lt p enc aes prng c inputs Hsz Hlen Hfit).
    + assert ((x, N.of_nat cc) ∈ itemsOf p data (regQ p enc inputs (i * dH p + j))) as Hm; [|intros E; rewrite E in Hm; by apply elem_of_nil in Hm].
      pose proof (regQ_lt p enc aes prng c inputs Hsz Hlen Hfit (i * dH p + j)) as Hb.
      apply (itemsOf_in p aes data D G Hsz HDG Hsort). split; [apply Hin; exists cc, w; by rewrite Ek|]. cbn [snd]. apply (region_slots p Hsz); [done|].
      assert (slotQ p enc inputs (i * dH p + j) = N.of_nat cc) as <-; [|by apply (regQ_iff p enc aes prng c inputs Hsz Hlen Hfit)].
      unfold slotQ, itemOf. rewrite Es. rewrite Nat.add_comm, Nat.div_add, Nat.mod_add, Nat.div_small, Nat.mod_small by lia.
      rewrite Nat.add_0_l, Hx. done.
Qed.

Lemma positions_ok p enc aes prng c inputs : sizesOk p -> length inputs = dN p -> queriesFit enc p inputs ->
  exists rows, clientLayout p enc aes prng c inputs = Some rows /\ piOf p rows ≡ₚ seq 0 (permSize p) /\ length rows = dS p /\
    Forall (fun row => length row = dBin p) rows.
Proof.
  intros Hsz Hlen Hfit.
  assert (exists D G, domainParams (dSlots p) (N.of_nat (dS p)) 1 = Done (D, G) /\ 0 < G) as (D & G & HDG & HG).
  { destruct Hsz as (_ & _ & HS & HB & HSl & HP). assert (N.of_nat (dS p) < 2 ^ 32) by nia.
    destruct (domain_ok (dSlots p) (N.of_nat (dS p)) 1) as (D & G & E & Hg & _); [lia|lia|change two64 with (2 ^ 32 * 2 ^ 32); nia|change two64 with (2 ^ 32 * 2 ^ 32); nia|].
    exists D, G. split; [done|lia]. }
  eexists. split; [apply (clientLayout_ok p enc aes prng c inputs Hsz Hlen Hfit D G HDG); lia|].
  split; [exact (pi_perm p enc aes prng c inputs Hsz Hlen Hfit D G HDG)|]. split; [apply rowsQ_length|].
  exact (rowsQ_row p enc aes prng c inputs Hsz Hlen Hfit D G HDG).
Qed.

Lemma threadBins_ok (regions T : nat) : (0 < T)%nat -> concat (map (threadBins regions T) (seq 0 T)) ≡ₚ seq 0 regions.
Proof.
  intros HT. unfold threadBins. apply (partition_perm (fun b => b mod T)%nat). intros b _. apply Nat.mod_upper_bound. lia.
Qed.

Lemma perm_check l n : NoDup l -> length l = n -> forallb (fun x => x <? n)%nat l = true -> l ≡ₚ seq 0 n.
Proof.
  intros ND L F. apply NoDup_Permutation_bis; [by apply NoDup_ListNoDup|by rewrite seq_length, L|].
  intros x Hx. apply in_seq. rewrite forallb_forall in F. specialize (F x Hx). apply Nat.ltb_lt in F. lia.
Qed.

Lemma run_exact p enc aes prng c serverSet bins inputs : sizesOk p -> length inputs = dN p -> queriesFit enc p inputs -> choicesOk p c ->
  tableOk enc p serverSet bins -> masksFresh p (cMask c) serverSet inputs -> 0 ∉ inputs -> regionsLead p bins ->
  exists out, drrn p enc aes prng c serverSet bins inputs = Some out /\ NoDup out /\
    forall i, i ∈ out <-> exists x, inputs !! i = Some x /\ x ∈ serverSet.
Proof.
  intros H1 H2 H3 H4 H5 H6 H7 H8. destruct (run_ok p enc aes prng c serverSet bins inputs H1 H2 H3 H4 H5) as (out & E & ND & HS & HC).
  exists out. split; [done|]. split; [done|]. intros i. split; [by apply HS|]. intros (x & Hx & Hin). by apply (HC H8 i x).
Qed.
Lemma run_sound p enc aes prng c serverSet bins inputs : sizesOk p -> length inputs = dN p -> queriesFit enc p inputs -> choicesOk p c ->
  tableOk enc p serverSet bins -> masksFresh p (cMask c) serverSet inputs -> 0 ∉ inputs ->
  exists out, drrn p enc aes prng c serverSet bins inputs = Some out /\ forall i, i ∈ out -> exists x, inputs !! i = Some x /\ x ∈ serverSet.
Proof.
  intros H1 H2 H3 H4 H5 H6 H7. destruct (run_ok p enc aes prng c serverSet bins inputs H1 H2 H3 H4 H5) as (out & E & ND & HS & HC).
  exists out. split; [done|]. by apply HS.
Qed.
