(** What the servers of the PIR-PSI protocol learn: complete runs; server 1; what the keys hide. *)
From Verif Require Import Base Partition_Model CuckooIndex_Model Bgi_Model Bgi_Spec Bgi_Proofs BgiFull_Proofs Drrn_Model Drrn_Spec Drrn_Proofs DrrnMask_Proofs DrrnClient_Proofs DrrnServer_Proofs DrrnRun_Proofs DrrnTop_Proofs.
From Verif Require Import DrrnView_Model BgiPrivacy_Spec BgiPrivacy_Proofs Order_Spec Order_Proofs DrrnView_Spec DrrnView_Proofs.

Lemma domain_exists p : sizesOk p -> exists D G, domainParams (dSlots p) (N.of_nat (dS p)) 1 = Done (D, G) /\ 0 < G /\ G <= 8.
Proof.
  intros (_ & _ & HS & HB & HSl & HP). assert (N.of_nat (dS p) < 2 ^ 32) by nia.
  destruct (domain_ok (dSlots p) (N.of_nat (dS p)) 1) as (D & G & E & Hg & _); [lia|lia|change two64 with (2 ^ 32 * 2 ^ 32); nia|change two64 with (2 ^ 32 * 2 ^ 32); nia|].
  exists D, G. split; [done|]. lia.
Qed.

Lemma server0_learns p enc aes prng c serverSet bins inputs : sizesOk p -> length inputs = dN p -> queriesFit enc p inputs -> choicesOk p c -> tableOk enc p serverSet bins ->
  exists v, view0Of p enc aes prng c serverSet bins inputs = Some v /\ forall i j x, inputs !! i = Some x -> (j < dH p)%nat ->
    (exists b, learnedRegion p (cPi1 c) v i j = Some b /\ inRegion (dSlots p) (N.of_nat (dS p)) (N.of_nat b) (itemSlot enc (dSlots p) x j)) /\
    (regionsLead p bins -> learnedValue p aes (cMask c) (cPi1 c) serverSet bins v i j = Some (slotContent serverSet bins (itemSlot enc (dSlots p) x j))).
Proof.
  intros Hsz Hlen Hfit Hch Htab.
  assert (dSlots p < 2 ^ 32) as W by (destruct Hsz as (_ & _ & _ & _ & HS & _); change (2 ^ 32) with (2 * 2 ^ 31); lia).
  destruct (tableOf_ok enc p serverSet bins Htab W) as (data & Hdata & Hsort & Hin). destruct (domain_exists p Hsz) as (D & G & HDG & HG & _).
  exact (learns_ok p enc aes prng c serverSet bins inputs Hsz Hlen Hfit Hch Htab D G data HDG Hdata Hsort Hin).
Qed.

(** A common item is among the values that server 0 reads. *)
Lemma content_common enc p serverSet bins x : tableOk enc p serverSet bins -> x ∈ serverSet -> exists j, (j < dH p)%nat /\ slotContent serverSet bins (itemSlot enc (dSlots p) x j) = x.
Proof.
  intros (_ & HPerm & Hpl) Hs. apply elem_of_list_lookup in Hs as [k Hk].
  assert (k ∈ map (fun w => N.to_nat (wordIdx w)) (filter (fun w => w ≠ emptyWord) bins)) as Hkin. { rewrite HPerm. apply elem_of_seq. apply lookup_lt_Some in Hk. lia. }
  apply elem_of_list_fmap in Hkin as (w & Ek & Hw). apply elem_of_list_filter in Hw as [Hne Hw]. apply elem_of_list_lookup in Hw as [cc Hc].
  rewrite Ek in Hk. destruct (Hpl cc w x Hc Hne Hk) as (j & Hj & Ec). exists j. split; [done|]. unfold slotContent. rewrite <- Ec, Nat2N.id, Hc. destruct (decide (w = emptyWord)); [done|]. by rewrite Hk.
Qed.

(** ** Server 1 *)

Lemma queriesTo_bin p enc (aes : bool -> N -> N) (prng : N -> N * N) (c : dchoices) inputs b : sizesOk p -> length inputs = dN p -> queriesFit enc p inputs -> queriesTo enc p inputs b = binQ p enc inputs b.
Proof.
  intros Hsz Hlen Hfit. unfold queriesTo, binQ. apply list_filter_iff. intros q. symmetry. apply (regQ_iff p enc aes prng c inputs Hsz Hlen Hfit).
Qed.
Lemma load_length p enc (aes : bool -> N -> N) (prng : N -> N * N) (c : dchoices) inputs b : sizesOk p -> length inputs = dN p -> queriesFit enc p inputs -> load enc p inputs b = length (queriesTo enc p inputs b).
Proof.
  intros Hsz Hlen Hfit. unfold load. rewrite (querySlots_map p enc aes prng c inputs Hsz Hlen Hfit), filter_map_length. done.
Qed.

Lemma nonzero_zero n m : ~ nonzero (replicate n 0, replicate m 0).
Proof.
  assert (forall n, map (fun _ : N => 0) (replicate n 0) = replicate n 0) as E by (intros k; induction k as [|k IH]; [done|cbn; by rewrite IH]).
  unfold nonzero. cbn [fst snd]. rewrite !E. by intros [H|H].
Qed.
Lemma filter_nonzero_count (l : list (list N * list N)) r n m : Forall nonzero l -> length (filter nonzero (l ++ replicate r (replicate n 0, replicate m 0))) = length l.
Proof.
  intros HF. rewrite filter_app, app_length, (filter_all _ l HF), filter_none; [cbn; lia|]. apply Forall_replicate. apply nonzero_zero.
Qed.

Lemma dummies {A} (f : qentry -> A) z D G r d : (forall d, f (dummyEntry D G d) = z) -> map f (map (dummyEntry D G) (seq d r)) = replicate r z.
Proof. intros H. revert d. induction r as [|r IH]; intros d; [done|]. cbn [seq map replicate]. by rewrite H, IH. Qed.

Lemma view1_rows p enc aes prng c inputs D G : sizesOk p -> length inputs = dN p -> queriesFit enc p inputs -> domainParams (dSlots p) (N.of_nat (dS p)) 1 = Done (D, G) -> 0 < G ->
  forall sel, (forall d, sel (dummyEntry (N.to_nat D) (N.to_nat G) d) = (replicate (S (N.to_nat D)) 0, replicate (N.to_nat G) 0)) ->
  map (map sel) (rowsQ p enc aes prng c inputs D G) =
  map (fun b => map (fun q => sel (entQ p enc aes prng c inputs D G b q)) (binQ p enc inputs b) ++
                replicate (dBin p - length (binQ p enc inputs b)) (replicate (S (N.to_nat D)) 0, replicate (N.to_nat G) 0)) (seq 0 (dS p)).
Proof.
  intros Hsz Hlen Hfit HDG HG sel Hsel. apply list_eq. intros b. change (map (map sel) ?l) with (map sel <$> l). change (map ?f (seq 0 (dS p))) with (f <$> seq 0 (dS p)). rewrite !list_lookup_fmap.
  destruct (decide (b < dS p)%nat) as [Hb|Hb].
  - destruct (rowsQ_lookup p enc aes prng c inputs D G b Hb) as (d & ->). rewrite lookup_seq_lt by done. cbn [fmap option_fmap option_map Nat.add]. f_equal. rewrite map_app, map_map. f_equal. by apply dummies.
  - rewrite (proj2 (lookup_ge_None _ _)) by (rewrite rowsQ_length; lia). rewrite lookup_seq_ge by lia. done.
Qed.

Lemma keyGen_root aes prng depth gs idx seed s0 s1 cws cws' g g' : keyGen aes prng depth gs idx seed = Done (s0 :: cws, g, s1 :: cws', g') -> (prng seed).2 = s1.
Proof.
  unfold keyGen. destruct (gs =? 0)%nat; [done|]. destruct (keyGenLoop _ _ _ _ _) as [[cs e0] e1]. destruct (groupWord _ _ _ _ _); [|done]. intros E. by injection E.
Qed.

Lemma server1_loads p enc aes prng c inputs : sizesOk p -> length inputs = dN p -> queriesFit enc p inputs -> (forall q, (q < dN p * dH p)%nat -> (prng (cSeed c q)).2 <> 0) ->
  exists keys, view1Of p enc aes prng c inputs = Some keys /\ forall b, (b < dS p)%nat -> learnedLoad keys b = load enc p inputs b.
Proof.
  intros Hsz Hlen Hfit Hroot. destruct (domain_exists p Hsz) as (D & G & HDG & HG & _). unfold view1Of.
  rewrite (clientLayout_ok p enc aes prng c inputs Hsz Hlen Hfit D G HDG) by lia. eexists. split; [reflexivity|]. intros b Hb.
  rewrite (load_length p enc aes prng c inputs b Hsz Hlen Hfit), (queriesTo_bin p enc aes prng c inputs b Hsz Hlen Hfit).
  rewrite (view1_rows p enc aes prng c inputs D G Hsz Hlen Hfit HDG HG) by done. unfold learnedLoad. change (map ?f (seq 0 (dS p))) with (f <$> seq 0 (dS p)).
  rewrite list_lookup_fmap, lookup_seq_lt by done. cbn [fmap option_fmap option_map Nat.add default]. unfold id. rewrite filter_nonzero_count; [apply map_length|].
  apply Forall_forall. intros kg Hkg. apply elem_of_list_fmap in Hkg as (q & -> & Hq). unfold binQ in Hq. apply elem_of_list_filter in Hq as [_ Hq]. apply elem_of_seq in Hq.
  left. unfold entQ, keysQ. cbn [qK1 fst snd].
  destruct (keyGen_ok aes prng (N.to_nat D) (N.to_nat G) (slotQ p enc inputs q - loOf p b) (cSeed c q) ltac:(lia)) as (s0 & s1 & cws & g & Ek & _).
  rewrite Ek. cbn [fst snd map]. intros E. injection E as E _. apply keyGen_root in Ek. apply (Hroot q ltac:(lia)). congruence.
Qed.

(** ** What the keys hide *)

Section view.
Variable (p : dparams) (enc : N -> N) (aes : bool -> N -> N) (prng : N -> N * N) (c : dchoices) (inputs : list N).
Hypothesis Hsz : sizesOk p.
Hypothesis Hlen : length inputs = dN p.
Hypothesis Hfit : queriesFit enc p inputs.
Hypothesis Haes : forall b x, x < 2 ^ 128 -> aes b x < 2 ^ 128.
Variable (D G : N).
Hypothesis HDG : domainParams (dSlots p) (N.of_nat (dS p)) 1 = Done (D, G).
Hypothesis HG : 0 < G <= 8.

Lemma queries_unique q b b' : q ∈ queriesTo enc p inputs b -> q ∈ queriesTo enc p inputs b' -> b = b'.
Proof. unfold queriesTo. intros [H _]%elem_of_list_filter [H' _]%elem_of_list_filter. pose proof (inRegion_unique _ _ _ _ _ H H'). lia. Qed.

Lemma view_tapes : exists root0 root1 tapes0 tapes1, (forall q, legalTape (N.to_nat D) (N.to_nat G) (tapes0 q) /\ legalTape (N.to_nat D) (N.to_nat G) (tapes1 q)) /\
  map (map qK0) (rowsQ p enc aes prng c inputs D G) = keysView aes enc p (N.to_nat D) (N.to_nat G) inputs root0 tapes0 /\
  map (map qK1) (rowsQ p enc aes prng c inputs D G) = keysView aes enc p (N.to_nat D) (N.to_nat G) inputs root1 tapes1.
Proof using All.
  set (reg := fun q => regQ p enc inputs q). set (off := fun q => slotQ p enc inputs q - loOf p (reg q)).
  set (K := fun q => keysQ p enc aes prng c inputs D G (reg q) q).
  assert (forall q, exists s0 s1 cws g, K q = (s0 :: cws, g, s1 :: cws, g) /\
    legalTape (N.to_nat D) (N.to_nat G) (tapeOf aes (N.to_nat G) (off q) s0 cws) /\ legalTape (N.to_nat D) (N.to_nat G) (tapeOf aes (N.to_nat G) (off q) s1 cws) /\
    keyOf aes (N.to_nat G) (off q) s0 (tapeOf aes (N.to_nat G) (off q) s1 cws) = (s0 :: cws, g) /\ keyOf aes (N.to_nat G) (off q) s1 (tapeOf aes (N.to_nat G) (off q) s0 cws) = (s1 :: cws, g)) as HK.
  { intros q. destruct (keys_tape aes prng (N.to_nat D) (N.to_nat G) (off q) (cSeed c q) Haes ltac:(lia) ltac:(lia)) as (s0 & s1 & cws & g & E & H). exists s0, s1, cws, g. split; [|done].
    unfold K, keysQ. unfold off in E. by rewrite E. }
  set (r0 := fun q => default 0 (head (K q).1.1.1)). set (r1 := fun q => default 0 (head (K q).1.2)). set (cw := fun q => tail (K q).1.2).
  exists r0, r1, (fun q => tapeOf aes (N.to_nat G) (off q) (r1 q) (cw q)), (fun q => tapeOf aes (N.to_nat G) (off q) (r0 q) (cw q)). split.
  { intros q. destruct (HK q) as (s0 & s1 & cws & g & E & L0 & L1 & _). unfold r0, r1, cw. rewrite E. done. }
  assert (forall b q, q ∈ binQ p enc inputs b -> (b < dS p)%nat -> reg q = b /\ querySlot enc p inputs q - firstSlot (dSlots p) (N.of_nat (dS p)) (N.of_nat b) = off q) as Hoff.
  { intros b q Hq Hb. unfold binQ in Hq. apply elem_of_list_filter in Hq as [Hr _]. split; [done|]. unfold off, reg. rewrite Hr. rewrite <- (loOf_first p b Hsz Hb). done. }
  split; (rewrite (view1_rows p enc aes prng c inputs D G Hsz Hlen Hfit HDG ltac:(lia)) by done); unfold keysView; apply map_ext_in; intros b Hb%in_seq;
    rewrite (queriesTo_bin p enc aes prng c inputs b Hsz Hlen Hfit); f_equal; apply map_ext_in; intros q Hq%elem_of_list_In; destruct (Hoff b q Hq ltac:(lia)) as [E1 ->];
    destruct (HK q) as (s0 & s1 & cws & g & E & _ & _ & K0 & K1); unfold entQ; cbn [qK0 qK1]; rewrite <- E1; fold (K q); unfold r0, r1, cw; rewrite E; cbn [fst snd head tail default]; unfold id; by rewrite ?K0, ?K1.
Qed.
End view.

Lemma view1_tapes p enc aes prng c inputs D G : sizesOk p -> length inputs = dN p -> queriesFit enc p inputs -> (forall b x, x < 2 ^ 128 -> aes b x < 2 ^ 128) ->
  domainParams (dSlots p) (N.of_nat (dS p)) 1 = Done (D, G) ->
  exists root tapes, (forall q, legalTape (N.to_nat D) (N.to_nat G) (tapes q)) /\ view1Of p enc aes prng c inputs = Some (keysView aes enc p (N.to_nat D) (N.to_nat G) inputs root tapes).
Proof.
  intros Hsz Hlen Hfit Ha HDG. destruct (domain_exists p Hsz) as (D' & G' & HDG' & HG & HG8). rewrite HDG in HDG'. injection HDG' as <- <-.
  destruct (view_tapes p enc aes prng c inputs Hsz Hlen Hfit Ha D G HDG ltac:(lia)) as (r0 & r1 & t0 & t1 & HT & _ & E1). exists r1, t1. split; [intros q; apply HT|].
  unfold view1Of. rewrite (clientLayout_ok p enc aes prng c inputs Hsz Hlen Hfit D G HDG) by lia. by rewrite E1.
Qed.

(** The queries, listed by region, are all queries. *)
Lemma queries_perm p enc (aes : bool -> N -> N) (prng : N -> N * N) (c : dchoices) inputs : sizesOk p -> length inputs = dN p -> queriesFit enc p inputs ->
  concat (map (queriesTo enc p inputs) (seq 0 (dS p))) ≡ₚ seq 0 (dN p * dH p).
Proof.
  intros Hsz Hlen Hfit. assert (map (queriesTo enc p inputs) (seq 0 (dS p)) = map (binQ p enc inputs) (seq 0 (dS p))) as ->.
  { apply map_ext. intros b. by apply (queriesTo_bin p enc aes prng c). }
  unfold binQ. apply (partition_perm (regQ p enc inputs)). intros q _. apply (regQ_lt p enc aes prng c inputs Hsz Hlen Hfit).
Qed.

Lemma concat_inj {A} (ls ls' : list (list A)) : Forall2 (fun l l' => length l = length l') ls ls' -> concat ls = concat ls' -> ls = ls'.
Proof.
  induction 1 as [|l l' ls ls' HL _ IH]; [done|]. cbn. intros E. apply app_inj_1 in E as [-> E]; [|done]. by rewrite IH.
Qed.

Lemma same_lengths {A B} (f : A -> B) (ls : list (list B)) (ls' : list (list A)) : Forall2 (fun l l' => length l = length l') ls ls' -> Forall2 (fun l l' => length l = length l') ls (map (map f) ls').
Proof. induction 1 as [|a b ls ls' HL _ IH]; cbn; constructor; [by rewrite map_length|done]. Qed.

Lemma concat_fmap_map {A B} (f : A -> B) (ls : list (list A)) : concat (map f <$> ls) = map f (concat ls).
Proof. induction ls as [|a ls IH]; [done|]. cbn. rewrite map_app. by f_equal. Qed.

Lemma match_blocks n (ls ls' : list (list nat)) : concat ls ≡ₚ seq 0 n -> concat ls' ≡ₚ seq 0 n -> Forall2 (fun l l' => length l = length l') ls ls' ->
  exists h, relabels n h /\ map (map h) ls' = ls.
Proof.
  intros HP HP' HL. set (l := concat ls) in *. set (l' := concat ls') in *. assert (NoDup l) as ND by (rewrite HP; apply NoDup_seq). assert (NoDup l') as ND' by (rewrite HP'; apply NoDup_seq).
  assert (length l = n /\ length l' = n) as [Ln Ln'] by (rewrite HP, HP'; split; apply seq_length).
  set (mv := fun (a b : list nat) q => match list_find (fun x => x = q) a with Some (i, _) => default 0%nat (b !! i) | None => 0%nat end).
  assert (forall (a b : list nat) i q, NoDup a -> a !! i = Some q -> mv a b q = default 0%nat (b !! i)) as Hmv.
  { intros a b i q Hd Hi. unfold mv. assert (list_find (fun x => x = q) a = Some (i, q)) as ->; [|done]. apply list_find_Some. split; [done|]. split; [done|]. intros j y Hy Hj ->.
    pose proof (NoDup_lookup a i j q Hd Hi Hy). lia. }
  assert (forall (a b : list nat) q, a ≡ₚ seq 0 n -> b ≡ₚ seq 0 n -> (q < n)%nat -> (mv a b q < n)%nat /\ mv b a (mv a b q) = q) as Hinv.
  { intros a b q Ha Hb Hq. assert (q ∈ a) as Hin by (rewrite Ha; apply elem_of_seq; lia). apply elem_of_list_lookup in Hin as [i Hi].
    assert (NoDup a) as Da by (rewrite Ha; apply NoDup_seq). assert (NoDup b) as Db by (rewrite Hb; apply NoDup_seq).
    assert (i < n)%nat as Hin by (apply lookup_lt_Some in Hi; by rewrite Ha, seq_length in Hi).
    destruct (lookup_lt_is_Some_2 b i) as [y Hy]; [by rewrite Hb, seq_length|]. rewrite (Hmv a b i q Da Hi), Hy. cbn. unfold id. split.
    - assert (y ∈ seq 0 n) as I by (rewrite <- Hb; by eapply elem_of_list_lookup_2). apply elem_of_seq in I. lia.
    - by rewrite (Hmv b a i y Db Hy), Hi. }
  exists (mv l' l). split.
  - exists (mv l l'). intros i Hi. destruct (Hinv l' l i HP' HP Hi) as [A1 A2], (Hinv l l' i HP HP' Hi) as [B1 B2]. done.
  - symmetry. apply concat_inj.
    + apply same_lengths, HL.
    + change (map (map (mv l' l)) ls') with (map (mv l' l) <$> ls'). assert (concat (map (mv l' l) <$> ls') = map (mv l' l) l') as ->.
      { apply concat_fmap_map. }
      fold l. apply list_eq. intros i. change (map ?f l') with (f <$> l'). rewrite list_lookup_fmap. destruct (decide (i < n)%nat) as [Hi|Hi].
      * destruct (lookup_lt_is_Some_2 l' i ltac:(lia)) as [q Hq]. rewrite Hq. cbn. rewrite (Hmv l' l i q ND' Hq). by destruct (lookup_lt_is_Some_2 l i ltac:(lia)) as [y ->].
      * rewrite !(proj2 (lookup_ge_None _ _)) by lia. done.
Qed.
