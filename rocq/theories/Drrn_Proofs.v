(** Proofs about the PIR-PSI model: parameters, table search, region evaluation. *)
From Verif Require Import Base Partition_Model CuckooIndex_Model Rr17_Model Bgi_Model Bgi_Spec Bgi_Proofs BgiFull_Proofs BgiMulti_Proofs Drrn_Model Drrn_Spec.

(** ** Slots and regions *)

Lemma divCeil_spec v d : 0 < d -> v + d <= two64 -> divCeil v d * d < v + d /\ v <= divCeil v d * d.
Proof.
  intros Hd Hv. unfold divCeil. rewrite N.mod_small by lia.
  pose proof (N.div_mod (v + d - 1) d ltac:(lia)) as E. pose proof (N.mod_lt (v + d - 1) d ltac:(lia)) as L.
  set (q := (v + d - 1) / d) in *. lia.
Qed.
Lemma divCeil_le v d c : 0 < d -> v + d <= two64 -> divCeil v d <= c <-> v <= c * d.
Proof.
  intros Hd Hv. destruct (divCeil_spec v d Hd Hv) as [A B]. set (q := divCeil v d) in *. split; intros H; nia.
Qed.
Lemma roundUpTo_1 v : roundUpTo v 1 = v.
Proof. unfold roundUpTo. rewrite N.div_1_r. lia. Qed.

Lemma region_iff slots regions b c : 0 < slots -> c * regions < two64 ->
  regionOf slots regions c = b <-> inRegion slots regions b c.
Proof.
  intros Hs Hc. unfold regionOf, inRegion. rewrite (N.mod_small (c * regions)) by done.
  pose proof (N.div_mod (c * regions) slots ltac:(lia)) as E. pose proof (N.mod_lt (c * regions) slots ltac:(lia)) as L.
  set (q := c * regions / slots) in *. set (x := c * regions) in *. split; [intros <-; nia|]. intros [A B]. nia.
Qed.

Lemma bounds_iff slots regions b c : 0 < regions -> (b + 1) * slots + regions <= two64 ->
  (regionBounds slots regions 1 b).1 <= c < (regionBounds slots regions 1 b).2 <-> inRegion slots regions b c.
Proof.
  intros Hr Hb. unfold regionBounds, inRegion. cbn [fst snd]. rewrite !roundUpTo_1. rewrite !(N.mod_small (_ * slots)) by nia.
  pose proof (divCeil_le (b * slots) regions c Hr ltac:(nia)) as A. pose proof (divCeil_le ((b + 1) * slots) regions c Hr ltac:(lia)) as B.
  set (x := divCeil (b * slots) regions) in *. set (y := divCeil ((b + 1) * slots) regions) in *.
  rewrite N.lt_nge. rewrite A, B. rewrite N.nle_gt. done.
Qed.

Lemma binOffset_lo slots regions b : b * slots + regions <= two64 -> b * slots < two64 ->
  binOffset slots regions b = (regionBounds slots regions 1 b).1.
Proof.
  intros H H'. unfold binOffset, regionBounds, divCeil. cbn [fst]. rewrite roundUpTo_1, (N.mod_small (b * slots)) by lia. done.
Qed.

(** ** Domain parameters *)

Lemma slotsPerBin_ceil slots regions : 0 < regions -> slots + regions < two64 ->
  0 < slotsPerBin slots regions /\ slots < slotsPerBin slots regions * regions /\ slotsPerBin slots regions * regions <= slots + regions.
Proof.
  intros Hr H. unfold slotsPerBin. rewrite N.mod_small by done.
  pose proof (N.div_mod (slots + regions) regions ltac:(lia)) as E. pose proof (N.mod_lt (slots + regions) regions ltac:(lia)) as L.
  set (q := (slots + regions) / regions) in *. split; [|split]; nia.
Qed.

Lemma leaf_params L : 0 < L -> L < 2 ^ 62 ->
  0 < groupSize L /\ groupSize L <= 8 /\ L <= 2 ^ kDepth L * groupSize L /\ 2 ^ kDepth L <= L.
Proof.
  intros HL HU. unfold groupSize.
  assert (2 ^ kDepth L <= L /\ L < 8 * 2 ^ kDepth L) as [A B].
  { unfold kDepth. pose proof (N.log2_spec L HL) as [A B]. destruct (N.le_gt_cases (N.log2 L) 2) as [C|C].
    - rewrite N.max_l by done. change (2 - 2) with 0. rewrite N.pow_0_r. split; [lia|].
      apply (N.lt_le_trans _ (2 ^ N.succ (N.log2 L))); [done|]. change (8 * 1) with (2 ^ 3). apply N.pow_le_mono_r; lia.
    - rewrite N.max_r by lia. assert (N.log2 L = 2 + (N.log2 L - 2)) as E by lia. rewrite E in A, B. rewrite N.pow_succ_r', N.pow_add_r in B.
      rewrite N.pow_add_r in A. change (2 ^ 2) with 4 in *. split; lia. }
  set (k := 2 ^ kDepth L) in *. assert (0 < k) by (subst k; lia).
  assert (L + k - 1 < two64) by (change two64 with (4 * 2 ^ 62); lia). rewrite (N.mod_small (L + k - 1)) by done.
  pose proof (N.div_mod (L + k - 1) k ltac:(lia)) as E. pose proof (N.mod_lt (L + k - 1) k ltac:(lia)) as M.
  clearbody k. set (q := (L + k - 1) / k) in *. split; [nia|]. split; [nia|]. split; nia.
Qed.

Lemma leafBlocks_spec perBin B : 0 < perBin -> 0 < B -> perBin + B * 128 < two64 ->
  0 < leafBlocks perBin B /\ perBin <= leafBlocks perBin B * (B * 128) /\ leafBlocks perBin B * (B * 128) < perBin + B * 128.
Proof.
  intros Hp HB HW. unfold leafBlocks. rewrite N.mod_small by lia.
  pose proof (N.div_mod (perBin + B * 128 - 1) (B * 128) ltac:(lia)) as E. pose proof (N.mod_lt (perBin + B * 128 - 1) (B * 128) ltac:(lia)) as L.
  set (q := (perBin + B * 128 - 1) / (B * 128)) in *. split; [nia|]. split; nia.
Qed.

Lemma leafBlocks_small perBin B : 0 < perBin -> 0 < B -> perBin + B * 128 < two64 -> leafBlocks perBin B < 2 ^ 62.
Proof.
  intros Hp HB HW. destruct (leafBlocks_spec perBin B Hp HB HW) as (_ & _ & U). change two64 with (4 * 2 ^ 62) in HW.
  assert (forall q, q * (B * 128) < perBin + B * 128 -> q < 2 ^ 62) as G; [|by apply G].
  clear U. intros q U. assert (q * 128 <= q * (B * 128)) by nia. lia.
Qed.

(** Blocks of a region of [x .. y): rounding the ends up to multiples of [B] does not add blocks. *)
Lemma round_blocks x y B n : 0 < B -> y <= x + n -> x <= y -> roundUpTo y B - roundUpTo x B <= roundUpTo n B.
Proof.
  intros HB Hn Hxy. unfold roundUpTo.
  pose proof (N.div_mod (x + B - 1) B ltac:(lia)) as E1. pose proof (N.mod_lt (x + B - 1) B ltac:(lia)) as L1.
  pose proof (N.div_mod (y + B - 1) B ltac:(lia)) as E2. pose proof (N.mod_lt (y + B - 1) B ltac:(lia)) as L2.
  pose proof (N.div_mod (n + B - 1) B ltac:(lia)) as E3. pose proof (N.mod_lt (n + B - 1) B ltac:(lia)) as L3.
  set (a := (x + B - 1) / B) in *. set (b := (y + B - 1) / B) in *. set (c := (n + B - 1) / B) in *.
  assert (b <= a + c) by nia. nia.
Qed.

Lemma region_size slots regions b : 0 < regions -> (b + 1) * slots + regions <= two64 -> slots + regions < two64 ->
  divCeil (b * slots) regions <= divCeil ((b + 1) * slots) regions <= divCeil (b * slots) regions + slotsPerBin slots regions.
Proof.
  intros Hr Hb Hs. destruct (slotsPerBin_ceil slots regions Hr Hs) as (_ & A & _).
  destruct (divCeil_spec (b * slots) regions Hr ltac:(nia)) as [B1 B2]. destruct (divCeil_spec ((b + 1) * slots) regions Hr ltac:(lia)) as [C1 C2].
  set (x := divCeil (b * slots) regions) in *. set (y := divCeil ((b + 1) * slots) regions) in *. set (q := slotsPerBin slots regions) in *.
  split; nia.
Qed.

Lemma domain_ok slots regions B : 0 < regions -> 0 < B -> slots + regions < two64 -> slots + 1 + B * 128 < two64 ->
  exists d g, domainParams slots regions B = Done (d, g) /\ 0 < g <= 8 /\ slotsPerBin slots regions <= 2 ^ d * g * 128 * B /\ 2 ^ d <= slots + 1.
Proof.
  intros Hr HB H1 H2. destruct (slotsPerBin_ceil slots regions Hr H1) as (P0 & P1 & P2).
  assert (slotsPerBin slots regions <= slots + 1) as P3.
  { set (q := slotsPerBin slots regions) in *. clear -P2 Hr. nia. }
  destruct (leafBlocks_spec (slotsPerBin slots regions) B P0 HB ltac:(lia)) as (L0 & L1 & L2).
  pose proof (leafBlocks_small (slotsPerBin slots regions) B P0 HB ltac:(lia)) as L3.
  destruct (leaf_params _ L0 L3) as (G0 & G1 & G2 & G3).
  unfold domainParams. rewrite (proj2 (N.ltb_ge 8 _)) by done. eexists _, _. split; [done|]. split; [done|].
  set (L := leafBlocks _ _) in *. set (q := slotsPerBin slots regions) in *. set (g := groupSize L) in *. set (k := 2 ^ kDepth L) in *.
  clear -L1 L2 G2 G3 L0 P3 HB. split; [nia|]. assert (L <= q) by nia. lia.
Qed.

(** ** Table search *)

Lemma sorted_lookup data i j a b : sortedTable data -> data !! i = Some a -> data !! j = Some b -> (i < j)%nat -> a.2 < b.2.
Proof.
  intros HS. revert i j. induction HS as [|x l HS IH HF]; intros i j Ha Hb Hij; [done|].
  destruct j as [|j]; [lia|]. cbn in Hb. destruct i as [|i].
  - injection Ha as <-. rewrite Forall_forall in HF. apply HF. by eapply elem_of_list_lookup_2.
  - apply (IH i j); [exact Ha|exact Hb|lia].
Qed.
Lemma filter_all {A} (P : A -> Prop) `{!forall x, Decision (P x)} (l : list A) : Forall P l -> filter P l = l.
Proof. induction 1 as [|x l Hx HF IH]; [done|]. rewrite filter_cons_True by done. by rewrite IH. Qed.
Lemma filter_none {A} (P : A -> Prop) `{!forall x, Decision (P x)} (l : list A) : Forall (fun x => ~ P x) l -> filter P l = [].
Proof. induction 1 as [|x l Hx HF IH]; [done|]. by rewrite filter_cons_False. Qed.

(** Entries before [k] are below [c], the others are not. *)
Lemma count_split data c k : (k <= length data)%nat -> (forall i e, data !! i = Some e -> (i < k)%nat -> e.2 < c) ->
  (forall i e, data !! i = Some e -> (k <= i)%nat -> c <= e.2) -> length (filter (fun e : N * N => e.2 < c) data) = k.
Proof.
  intros Hk H1 H2. rewrite <- (take_drop k data) at 1. rewrite filter_app, filter_all, filter_none.
  - rewrite app_nil_r, take_length. lia.
  - apply Forall_forall. intros e He. apply elem_of_list_lookup in He as [i Hi]. rewrite lookup_drop in Hi.
    specialize (H2 _ _ Hi ltac:(lia)). lia.
  - apply Forall_forall. intros e He. apply elem_of_list_lookup in He as [i Hi].
    assert (i < k)%nat by (apply lookup_lt_Some in Hi; rewrite take_length in Hi; lia). rewrite lookup_take in Hi by done. by eapply H1.
Qed.

Lemma findLoop_ok data c fuel : sortedTable data -> forall left right, (0 <= left)%Z -> (right < Z.of_nat (length data))%Z -> (left <= right + 1)%Z ->
  (right - left + 1 < Z.of_nat fuel)%Z ->
  (forall i e, data !! i = Some e -> (Z.of_nat i < left)%Z -> e.2 < c) ->
  (forall i e, data !! i = Some e -> (right < Z.of_nat i)%Z -> c <= e.2) ->
  findLoop fuel data c left right = Done (N.of_nat (length (filter (fun e : N * N => e.2 < c) data))).
Proof.
  intros HS. induction fuel as [|f IH]; intros left right H0 H1 HL HF HA HB; [lia|]. cbn [findLoop].
  destruct (Z.leb_spec left right) as [Hlr|Hlr].
  - assert (left <= Z.quot (left + right) 2 <= right)%Z as Hm.
    { rewrite Z.quot_div_nonneg by lia. split; [apply Z.div_le_lower_bound; lia|]. apply Z.div_le_upper_bound; lia. }
    set (m := Z.quot (left + right) 2) in *. clearbody m.
    rewrite (proj2 (Z.leb_gt _ _)) by lia. rewrite (proj2 (Z.ltb_ge _ _)) by lia. cbn [orb].
    destruct (lookup_lt_is_Some_2 data (Z.to_nat m) ltac:(lia)) as [e He]. rewrite He.
    destruct (N.ltb_spec e.2 c) as [Hc|Hc]; [|destruct (N.ltb_spec c e.2) as [Hc'|Hc']].
    + apply IH; try lia; [|exact HB]. intros i e' He' Hi. destruct (decide (i = Z.to_nat m)) as [->|]; [congruence|].
      pose proof (sorted_lookup data i (Z.to_nat m) e' e HS He' He ltac:(lia)). lia.
    + apply IH; try lia; [exact HA|]. intros i e' He' Hi. destruct (decide (i = Z.to_nat m)) as [->|]; [assert (e' = e) as -> by congruence; lia|].
      pose proof (sorted_lookup data (Z.to_nat m) i e e' HS He He' ltac:(lia)). lia.
    + rewrite (count_split data c (Z.to_nat m)); [f_equal; lia|lia| |].
      * intros i e' He' Hi. pose proof (sorted_lookup data i (Z.to_nat m) e' e HS He' He Hi). lia.
      * intros i e' He' Hi. destruct (decide (i = Z.to_nat m)) as [->|]; [assert (e' = e) as -> by congruence; lia|].
        pose proof (sorted_lookup data (Z.to_nat m) i e e' HS He He' ltac:(lia)). lia.
  - rewrite (count_split data c (Z.to_nat left)); [f_equal; lia|lia| |].
    + intros i e He Hi. apply (HA i e He). lia.
    + intros i e He Hi. apply (HB i e He). lia.
Qed.
Lemma find_ok data c : sortedTable data -> find data c = Done (N.of_nat (length (filter (fun e : N * N => e.2 < c) data))).
Proof.
  intros HS. unfold find. apply findLoop_ok; try done; try lia.
  intros i e He Hi. apply lookup_lt_Some in He. lia.
Qed.

(** The entries found for a range of slots. *)
Lemma sorted_range data lo hi : sortedTable data -> lo <= hi ->
  take (length (filter (fun e : N * N => e.2 < hi) data) - length (filter (fun e : N * N => e.2 < lo) data))
    (drop (length (filter (fun e : N * N => e.2 < lo) data)) data) = filter (fun e : N * N => lo <= e.2 /\ e.2 < hi) data.
Proof.
  intros HS HL. induction HS as [|x l HS IH HF]; [done|].
  destruct (decide (x.2 < lo)) as [A|A].
  - rewrite (filter_cons_True (fun e : N * N => e.2 < lo)) by done. rewrite (filter_cons_True (fun e : N * N => e.2 < hi)) by lia.
    rewrite (filter_cons_False (fun e : N * N => lo <= e.2 /\ e.2 < hi)) by lia. cbn [length drop]. rewrite Nat.sub_succ. exact IH.
  - rewrite (filter_cons_False (fun e : N * N => e.2 < lo)) by done.
    rewrite (filter_none (fun e : N * N => e.2 < lo)) in IH |- *
      by (eapply Forall_impl; [exact HF|]; cbn; intros; lia). cbn [length] in *. rewrite ?Nat.sub_0_r, ?drop_0 in *.
    destruct (decide (x.2 < hi)) as [B|B].
    + rewrite (filter_cons_True (fun e : N * N => e.2 < hi)) by done. rewrite (filter_cons_True (fun e : N * N => lo <= e.2 /\ e.2 < hi)) by lia.
      cbn [length take]. by rewrite IH.
    + rewrite (filter_cons_False (fun e : N * N => e.2 < hi)) by done. rewrite (filter_cons_False (fun e : N * N => lo <= e.2 /\ e.2 < hi)) by lia.
      rewrite (filter_none (fun e : N * N => e.2 < hi)) by (eapply Forall_impl; [exact HF|]; cbn; intros; lia).
      rewrite (filter_none (fun e : N * N => lo <= e.2 /\ e.2 < hi)) by (eapply Forall_impl; [exact HF|]; cbn; intros; lia). done.
Qed.

(** ** Evaluation of a region *)

Local Notation key := (list N * list N)%type.

Lemma selectItems_cons f lo e items : selectItems f lo (e :: items) = N.lxor (if f (e.2 - lo) then e.1 else 0) (selectItems f lo items).
Proof. done. Qed.

Lemma addItem_keys (f : key -> bool) (F : key -> N) v keys :
  addItem 0 (map (fun kg => if f kg then 1 else 0) keys) v (map F keys) = Some (map (fun kg => N.lxor (F kg) (if f kg then v else 0)) keys).
Proof.
  unfold addItem. rewrite !map_length. assert (forallb (fun b => b <? 2) (map (fun kg => if f kg then 1 else 0) keys) = true) as ->.
  { apply forallb_forall. intros x Hx. apply in_map_iff in Hx as (kg & <- & _). by destruct (f kg). }
  rewrite (proj2 (Nat.leb_le _ _)) by lia. cbn [andb]. rewrite take_0, drop_0. rewrite drop_ge by (rewrite map_length; lia).
  cbn [app]. rewrite app_nil_r. f_equal. induction keys as [|kg keys IH]; [done|]. cbn [map zip_with]. rewrite IH. by destruct (f kg).
Qed.

Lemma evalBlocks_ok aes (keys : list key) (f : key -> N -> bool) n : forall r mk mk' items F lo,
  yields aes n mk = Done (mk', map (fun r => map (fun kg => if f kg (N.of_nat r) : bool then 1 else 0) keys) (seq r n)) ->
  sortedTable items -> Forall (fun e : N * N => lo + N.of_nat r <= e.2 /\ e.2 < lo + N.of_nat (r + n)) items -> lo + N.of_nat (r + n) < 2 ^ 32 ->
  evalBlocks aes 1 n mk items (lo + N.of_nat r + 1) (map F keys) =
    Done (map (fun kg => N.lxor (F kg) (selectItems (f kg) lo items)) keys).
Proof.
  induction n as [|n IH]; intros r mk mk' items F lo HY HS HF HB.
  - cbn [evalBlocks]. destruct items as [|e items]; [|apply Forall_cons in HF as [HF _]; lia].
    f_equal. apply map_ext. intros kg. unfold selectItems. cbn. by rewrite N.lxor_0_r.
  - cbn [evalBlocks]. cbn [yields] in HY. destruct (mkYield aes mk) as [[mk1 bits]|[mk1 b]| |] eqn:EY; [|discriminate|discriminate|discriminate].
    destruct (yields aes n mk1) as [[mk2 rows]|[mk2 rows]| |] eqn:EY2; [|discriminate|discriminate|discriminate].
    cbn [seq map] in HY. injection HY as -> -> ->.
    set (bits := map (fun kg => if f kg (N.of_nat r) then 1 else 0) keys).
    assert (exists items' F', addItems 0 bits (lo + N.of_nat r + 1) items (map F keys) = Some (items', map F' keys) /\ sortedTable items' /\
      Forall (fun e : N * N => lo + N.of_nat (S r) <= e.2 /\ e.2 < lo + N.of_nat (S r + n)) items' /\
      forall kg, N.lxor (F' kg) (selectItems (f kg) lo items') = N.lxor (F kg) (selectItems (f kg) lo items)) as (items' & F' & E & HS' & HF' & HX).
    { assert (forall items base F', Forall (fun e : N * N => lo + N.of_nat (S r) <= e.2 /\ e.2 < lo + N.of_nat (S r + n)) items ->
        addItems base bits (lo + N.of_nat r + 1) items (map F' keys) = Some (items, map F' keys)) as Hstop.
      { intros [|e it] base F' Hit; [done|]. cbn [addItems]. apply Forall_cons in Hit as [Hit _]. rewrite (proj2 (N.ltb_ge _ _)) by lia. done. }
      destruct items as [|e items].
      - exists [], F. split; [done|]. split; [done|]. split; [done|]. done.
      - destruct (decide (e.2 = lo + N.of_nat r)) as [He|He].
        + inversion HS as [|? ? HS' HFs]; subst. apply Forall_cons in HF as [_ HF]. eexists items, _. cbn [addItems]. rewrite (proj2 (N.ltb_lt _ _)) by lia.
          unfold bits at 1. rewrite (addItem_keys (fun kg => f kg (N.of_nat r))).
          assert (Forall (fun e : N * N => lo + N.of_nat (S r) <= e.2 /\ e.2 < lo + N.of_nat (S r + n)) items) as HF2.
          { rewrite Forall_forall in HF, HFs |- *. intros x Hx. specialize (HF x Hx). specialize (HFs x Hx). cbn in HFs. lia. }
          rewrite Hstop by exact HF2. split; [done|]. split; [done|]. split; [done|]. intros kg. rewrite selectItems_cons, He.
          replace (lo + N.of_nat r - lo) with (N.of_nat r) by lia. by rewrite N.lxor_assoc.
        + assert (Forall (fun e : N * N => lo + N.of_nat (S r) <= e.2 /\ e.2 < lo + N.of_nat (S r + n)) (e :: items)) as HF2.
          { inversion HS as [|? ? HS' HFs]; subst. rewrite Forall_forall in HF, HFs |- *. intros x Hx. pose proof (HF x Hx) as A.
            pose proof (HF e ltac:(left)) as B. apply elem_of_cons in Hx as [->|Hx]; [lia|]. specialize (HFs x Hx). cbn in HFs. lia. }
          exists (e :: items), F. split; [by apply Hstop|]. split; [done|]. split; [done|]. done. }
    rewrite E. destruct n as [|n].
    + cbn [evalBlocks]. destruct items' as [|e items']; [|apply Forall_cons in HF' as [HF' _]; lia].
      f_equal. apply map_ext. intros kg. rewrite <- HX. unfold selectItems. cbn. by rewrite N.lxor_0_r.
    + rewrite (N.mod_small (lo + N.of_nat r + 1 + 1)) by lia. replace (lo + N.of_nat r + 1 + 1) with (lo + N.of_nat (S r) + 1) by lia.
      rewrite (IH (S r) mk1 _ items' F' lo EY2 HS' HF') by lia. f_equal. apply map_ext. exact HX.
Qed.


Lemma evalBin_ok aes (keys : list key) items D gs first size :
  keys ≠ [] -> (0 < gs)%nat -> N.of_nat D < 2 ^ 64 -> Forall (fun kg : key => length kg.1 = S D /\ length kg.2 = gs) keys ->
  sortedTable items -> Forall (fun e : N * N => first <= e.2 /\ e.2 < first + size) items -> first + size < 2 ^ 32 ->
  (match items with e :: _ => e.2 = first | [] => True end) -> size <= domainSize D gs ->
  evalBin aes 1 keys items (replicate (length keys) 0) size = Done (map (fun kg => selectItems (keyBit aes kg) first items) keys).
Proof.
  intros Hne Hgs HD HK HS HF HB H0 Hsz. unfold evalBin. rewrite N.mod_1_r.
  assert (replicate (length keys) 0 = map (fun _ => 0) keys) as ER by (clear; induction keys as [|? ? IH]; [done|]; cbn; by rewrite IH).
  change (negb (0 =? 0)) with false. cbn iota. destruct items as [|e items].
  - rewrite ER. f_equal.
  - destruct (multi_ok aes keys D gs HK Hgs HD Hne) as (o & Eo & H1 & _). rewrite Eo.
    assert (divCeil size 1 = size) as -> by (unfold divCeil; change two64 with (2 ^ 32 * 2 ^ 32); rewrite N.mod_small, N.div_1_r by lia; lia).
    assert (N.to_nat (domainSize D gs) = N.to_nat (2 ^ N.of_nat D) * (gs * 128))%nat as Es by (unfold domainSize; lia).
    destruct (H1 (N.to_nat size) ltac:(lia)) as (o' & Ey). rewrite H0.
    destruct (decide (size = 0)) as [->|Hs]. { apply Forall_cons in HF as [HF _]. lia. }
    rewrite N.mod_small by lia.
    pose proof (evalBlocks_ok aes keys (fun kg => evalBit aes kg.1 kg.2) (N.to_nat size) 0 o o' (e :: items) (fun _ => 0) first) as G.
    rewrite Nat.add_0_l, N2Nat.id in G. change (N.of_nat 0) with 0 in G. rewrite !N.add_0_r in G. rewrite ER, G; [|exact Ey|exact HS|exact HF|exact HB].
    reflexivity.
Qed.
