(** Lemmas about RR17a. *)
From Verif Require Import Base Partition_Model Dcw_Spec Dcw_Proofs Ecdh_Proofs Rr17_Model Rr17_Proofs Rr17a_Model Rr17a_Spec.

Local Arguments nco : simpl never.
Local Arguments itemBin : simpl never.
Local Arguments masksPer : simpl never.
Local Arguments numChunks : simpl never.

(** ** Lists *)

Lemma NoDup_concat_map_inj {A B} (g : A -> list B) ls a a' x : NoDup (concat (map g ls)) -> a ∈ ls -> a' ∈ ls -> x ∈ g a -> x ∈ g a' -> a = a'.
Proof.
  induction ls as [|c ls IH]; intros ND Ha Ha' Hx Hx'; [by apply elem_of_nil in Ha|]. cbn in ND. apply NoDup_app in ND as (_ & D & ND).
  assert (forall b, b ∈ ls -> x ∈ g b -> x ∈ concat (map g ls)) as IN.
  { intros b Hb Hxb. apply elem_of_concat. exists (g b). split; [done|]. by apply (elem_of_list_fmap_1 g). }
  apply elem_of_cons in Ha as [->|Ha]; apply elem_of_cons in Ha' as [->|Ha']; [done| | |by apply IH].
  - exfalso. by apply (D x Hx), (IN a').
  - exfalso. by apply (D x Hx'), (IN a).
Qed.

Lemma NoDup_concat_part {A} (ls : list (list A)) l : NoDup (concat ls) -> l ∈ ls -> NoDup l.
Proof.
  induction ls as [|c ls IH]; intros ND H; [by apply elem_of_nil in H|]. cbn in ND. apply NoDup_app in ND as (N1 & _ & N2).
  apply elem_of_cons in H as [->|H]; [done|by apply IH].
Qed.

Lemma NoDup_map_inj_on {A B} (f : A -> B) ks a b : NoDup (map f ks) -> a ∈ ks -> b ∈ ks -> f a = f b -> a = b.
Proof.
  induction ks as [|c ks IH]; intros ND Ha Hb E; [by apply elem_of_nil in Ha|]. cbn in ND. apply NoDup_cons in ND as [NI ND].
  apply elem_of_cons in Ha as [->|Ha]; apply elem_of_cons in Hb as [->|Hb]; [done| | |by apply IH].
  - exfalso. apply NI. rewrite E. by apply (elem_of_list_fmap_1 f).
  - exfalso. apply NI. rewrite <- E. by apply (elem_of_list_fmap_1 f).
Qed.

Lemma Permutation_concat' {A} (l k : list (list A)) : l ≡ₚ k -> concat l ≡ₚ concat k.
Proof. intros H. induction H; cbn; [done|by rewrite IHPermutation|rewrite !app_assoc; f_equiv; apply Permutation_app_comm|by etrans]. Qed.
Lemma Permutation_concat_map {A B} (f : A -> list B) l k : l ≡ₚ k -> concat (map f l) ≡ₚ concat (map f k).
Proof. intros H. apply Permutation_concat'. by apply Permutation_map. Qed.

Lemma omap_submseteq {A B} (f g : A -> option B) (l : list A) : (forall x y, x ∈ l -> f x = Some y -> g x = Some y) -> omap f l ⊆+ omap g l.
Proof.
  induction l as [|a l IH]; intros H; [done|]. cbn. assert (omap f l ⊆+ omap g l) as IH' by (apply IH; intros x y Hx; apply H; by right).
  destruct (f a) as [y|] eqn:E.
  - rewrite (H a y) by (done || left). by apply submseteq_skip.
  - destruct (g a); [by apply submseteq_cons|done].
Qed.

Lemma concat_submseteq {A B} (f g : A -> list B) (l : list A) : (forall x, x ∈ l -> f x ⊆+ g x) -> concat (map f l) ⊆+ concat (map g l).
Proof.
  induction l as [|a l IH]; intros H; [done|]. cbn. apply submseteq_app; [apply H; left|]. apply IH. intros x Hx. apply H. by right.
Qed.

Lemma omap_concat {A B} (f : A -> option B) (ls : list (list A)) : omap f (concat ls) = concat (map (omap f) ls).
Proof. induction ls as [|l ls IH]; [done|]. cbn. by rewrite omap_app, IH. Qed.

Lemma omap_perm {A B} (f : A -> option B) (l k : list A) : l ≡ₚ k -> omap f l ≡ₚ omap f k.
Proof. by intros ->. Qed.

(** ** Items over bins *)

Lemma filter_ext_in {A} (Q Q' : A -> Prop) `{!forall x, Decision (Q x)} `{!forall x, Decision (Q' x)} (l : list A) :
  (forall x, x ∈ l -> Q x <-> Q' x) -> filter Q l = filter Q' l.
Proof.
  induction l as [|a l IH]; intros HQ; [done|]. rewrite !filter_cons. rewrite IH by (intros x Hx; apply HQ; by right).
  destruct (HQ a ltac:(left)) as [h1 h2]. destruct (decide (Q a)) as [h|h], (decide (Q' a)) as [h'|h']; try done; exfalso; auto.
Qed.

Lemma filter_bins (addrs : list nat) ord nb m : (nb <= m)%nat ->
  concat (map (fun b => filter (fun i => addrs !! i = Some b) ord) (seq 0 nb)) ≡ₚ filter (fun i => (default m (addrs !! i) < nb)%nat) ord.
Proof.
  induction nb as [|nb IH]; intros Hm.
  - cbn. assert (filter (fun i => (default m (addrs !! i) < 0)%nat) ord = []) as ->; [|done].
    induction ord as [|i ord IHo]; [done|]. rewrite filter_cons_False; [done|]. lia.
  - rewrite seq_S, map_app, concat_app, IH by lia. cbn [map concat]. rewrite app_nil_r. cbn [Nat.add]. clear IH.
    induction ord as [|i ord IHo]; [done|]. rewrite !filter_cons. destruct (addrs !! i) as [b|] eqn:Eb; cbn [default].
    + unfold id. destruct (decide (b < nb)%nat) as [Lb|NE].
      * rewrite (decide_False (P := Some b = Some nb)) by (intros E; injection E as ->; lia). rewrite (decide_True (P := (b < S nb)%nat)) by lia. cbn. by rewrite IHo.
      * destruct (decide (Some b = Some nb)) as [E|NE2].
        -- injection E as ->. rewrite (decide_True (P := (nb < S nb)%nat)) by lia. rewrite <- Permutation_middle. by rewrite IHo.
        -- rewrite (decide_False (P := (b < S nb)%nat)); [done|]. intros L. apply NE2. f_equal. lia.
    + rewrite (decide_False (P := (m < nb)%nat)) by lia. rewrite (decide_False (P := None = Some nb)) by done. rewrite (decide_False (P := (m < S nb)%nat)) by lia. done.
Qed.

Lemma filter_all {A} (Q : A -> Prop) `{!forall x, Decision (Q x)} (l : list A) : (forall x, x ∈ l -> Q x) -> filter Q l = l.
Proof. induction l as [|a l IH]; intros HQ; [done|]. rewrite filter_cons_True by (apply HQ; left). f_equal. apply IH. intros x Hx. apply HQ. by right. Qed.

(** What the bins of a party look like. *)
Definition binsOk (P : params) (items : list N) (bins : list (list nat)) : Prop :=
  exists ord, ord ≡ₚ seq 0 (length items) /\ length bins = pNb P /\
    forall b, (b < pNb P)%nat -> bins !! b = Some (filter (fun i => map (itemBin P) items !! i = Some b) ord).

Lemma itemBin_lt P x : (0 < pNb P)%nat -> (itemBin P x < pNb P)%nat.
Proof. apply binOf_lt. Qed.

Lemma load_length P items b : length (filter (fun i => map (itemBin P) items !! i = Some b) (seq 0 (length items))) = load P items b.
Proof.
  unfold load. induction items as [|x items IH] using rev_ind; [done|]. rewrite app_length. cbn [length]. rewrite Nat.add_1_r, seq_S, !filter_app, !app_length.
  f_equal.
  - rewrite <- IH. f_equal. apply filter_ext_in. intros i Hi. apply elem_of_seq in Hi.
    rewrite map_app, lookup_app_l by (rewrite map_length; lia). done.
  - rewrite !filter_cons, !filter_nil. rewrite map_app, lookup_app_r by (rewrite map_length; lia). rewrite map_length. cbn [Nat.add].
    rewrite Nat.sub_diag. cbn. destruct (decide (itemBin P x = b)) as [->|NE]; [by rewrite decide_True|]. rewrite decide_False; [done|]. congruence.
Qed.

Lemma mkBins_ok P items ord : paramsOk P items -> ord ≡ₚ seq 0 (pN P) -> exists bins, mkBins P items ord = Some bins /\ binsOk P items bins.
Proof.
  intros (Hn & Hnb & Hcap & HT & HM & Hw & HL & HC) HO. unfold mkBins.
  destruct (fillBins_ok (pCap P) (map (itemBin P) items) ord (pNb P)) as (bins & E & L & K).
  - by rewrite map_length, HL.
  - intros b Hb. apply elem_of_list_fmap in Hb as (x & -> & _). by apply itemBin_lt.
  - intros b. rewrite map_length, load_length. apply HC.
  - exists bins. split; [done|]. exists ord. rewrite HL. done.
Qed.

Lemma binsOk_elem P items bins b i : binsOk P items bins -> (b < pNb P)%nat ->
  exists bin, bins !! b = Some bin /\ NoDup bin /\ (i ∈ bin <-> exists x, items !! i = Some x /\ itemBin P x = b).
Proof.
  intros (ord & HO & L & K) Hb. exists (filter (fun i => map (itemBin P) items !! i = Some b) ord). split; [by apply K|]. split.
  - apply NoDup_filter. rewrite HO. apply NoDup_seq.
  - rewrite elem_of_list_filter, HO, elem_of_seq, (list_lookup_fmap (itemBin P)). split.
    + intros [E _]. destruct (items !! i) as [x|]; [|done]. cbn in E. injection E as E. eauto.
    + intros (x & Ex & E). rewrite Ex. cbn. apply lookup_lt_Some in Ex. split; [by rewrite E|lia].
Qed.

Lemma binsOk_length P items bins b bin : binsOk P items bins -> (forall b, (load P items b <= pCap P)%nat) -> bins !! b = Some bin -> (length bin <= pCap P)%nat.
Proof.
  intros (ord & HO & L & K) HC E. assert (b < pNb P)%nat as Hb by (rewrite <- L; by eapply lookup_lt_Some). rewrite (K b Hb) in E. injection E as <-.
  rewrite (filter_perm _ _ _ HO), load_length. apply HC.
Qed.

(** All bins together hold every item once. *)
Lemma binsOk_all P items bins (pls : list (nat * nat * nat)) : (0 < pNb P)%nat -> binsOk P items bins ->
  map (fun pl : nat * nat * nat => pl.1.2) pls ≡ₚ seq 0 (pNb P) ->
  concat (map (fun pl : nat * nat * nat => default [] (bins !! pl.1.2)) pls) ≡ₚ seq 0 (length items).
Proof.
  intros Hnb (ord & HO & L & K) HP.
  rewrite <- (map_map (fun pl : nat * nat * nat => pl.1.2) (fun b => default [] (bins !! b))).
  rewrite (Permutation_concat_map (fun b => default [] (bins !! b)) _ _ HP).
  assert (map (fun b => default [] (bins !! b)) (seq 0 (pNb P)) = map (fun b => filter (fun i => map (itemBin P) items !! i = Some b) ord) (seq 0 (pNb P))) as ->.
  { apply map_ext_in. intros b Hb. apply in_seq in Hb. by rewrite K by lia. }
  rewrite (filter_bins _ ord (pNb P) (pNb P)) by lia. rewrite filter_all; [done|].
  intros i Hi. rewrite HO in Hi. apply elem_of_seq in Hi. rewrite (list_lookup_fmap (itemBin P)).
  destruct (lookup_lt_is_Some_2 items i ltac:(lia)) as [x ->]. cbn. by apply itemBin_lt.
Qed.

(** ** Own encodings *)

Lemma setMasks_length enc inp assign masks : length (setMasks enc inp assign masks) = length masks.
Proof. unfold setMasks. revert masks. induction assign as [|e assign IH]; intros masks; cbn [foldl]; [done|]. by rewrite IH, insert_length. Qed.
Lemma setMasks_other enc inp assign masks i : i ∉ assign.*1 -> setMasks enc inp assign masks !! i = masks !! i.
Proof.
  unfold setMasks. revert masks. induction assign as [|e assign IH]; intros masks H; cbn [foldl]; [done|].
  rewrite fmap_cons in H. apply not_elem_of_cons in H as [H1 H2]. rewrite IH by done. by apply list_lookup_insert_ne.
Qed.
Lemma setMasks_at enc inp assign masks i s : NoDup assign.*1 -> (i, s) ∈ assign -> (i < length masks)%nat ->
  setMasks enc inp assign masks !! i = Some (enc s (default 0 (inp !! i))).
Proof.
  revert masks. induction assign as [|e assign IH]; intros masks ND H L; [by apply elem_of_nil in H|].
  rewrite fmap_cons in ND. apply NoDup_cons in ND as [NI ND]. apply elem_of_cons in H as [<-|H].
  - cbn [setMasks foldl fst snd]. change (foldl _ ?m assign) with (setMasks enc inp assign m). rewrite setMasks_other by done. by apply list_lookup_insert.
  - cbn [setMasks foldl]. change (foldl _ ?m assign) with (setMasks enc inp assign m). apply IH; [done|done|by rewrite insert_length].
Qed.

Lemma threadMasks_gen enc inp assigns : forall a masks,
  let res := foldl (fun m e => setMasks (enc e.1) inp e.2 m) masks (zip (seq a (length assigns)) assigns) in
  length res = length masks /\
  (forall i, i ∉ (concat assigns).*1 -> res !! i = masks !! i) /\
  (NoDup (concat assigns).*1 -> forall t l i s, assigns !! t = Some l -> (i, s) ∈ l -> (i < length masks)%nat -> res !! i = Some (enc (a + t)%nat s (default 0 (inp !! i)))).
Proof.
  induction assigns as [|l0 assigns IH]; intros a masks res; unfold res; clear res.
  - cbn. split; [done|]. split; [done|]. intros _ t l i s H. by rewrite lookup_nil in H.
  - cbn [length seq zip zip_with foldl fst snd]. change (zip_with pair ?x ?y) with (zip x y).
    destruct (IH (S a) (setMasks (enc a) inp l0 masks)) as (L & O & A). split; [by rewrite L, setMasks_length|]. split.
    + intros i Hi. cbn in Hi. rewrite fmap_app in Hi. apply not_elem_of_app in Hi as [H1 H2]. rewrite O by done. by apply setMasks_other.
    + intros ND t l i s Hl Hi Hlt. cbn in ND. rewrite fmap_app in ND. apply NoDup_app in ND as (N1 & D & N2). destruct t as [|t]; cbn in Hl.
      * injection Hl as ->. rewrite O, setMasks_at with (s := s); [by rewrite Nat.add_0_r|done|done|done|].
        apply D. by apply (elem_of_list_fmap_1 fst) in Hi.
      * rewrite (A N2 t l i s) by (done || by rewrite setMasks_length). f_equal. f_equal. lia.
Qed.

Lemma Forall2_parts_fst cap bins pls parts : Forall2 (partOk cap bins) pls parts ->
  (concat parts).*1 ≡ₚ concat (map (fun pl : nat * nat * nat => default [] (bins !! pl.1.2)) pls).
Proof.
  intros F. induction F as [|pl part pls parts (bin & E & Hp & _) F IH]; [done|]. cbn. rewrite fmap_app, IH, E. cbn. by rewrite Hp.
Qed.

(** A party that assigned an own OT of the bin to each item holds its encoding. *)
Lemma party_masks P items bins enc inp asg : paramsOk P items -> binsOk P items bins ->
  (forall t, (t < pT P)%nat -> exists parts, asg t = concat parts /\ Forall2 (partOk (pCap P) bins) (placesOf (pCap P) (pNb P) (pT P) t) parts) ->
  forall t b base i x, (t, b, base) ∈ places (pCap P) (pNb P) (pT P) -> items !! i = Some x -> itemBin P x = b ->
  exists s, (s < pCap P)%nat /\
    threadMasks enc inp (map asg (seq 0 (pT P))) (replicate (pN P) 0) !! i = Some (enc t (base + s)%nat (default 0 (inp !! i))).
Proof.
  intros (Hn & Hnb & Hcap & HT & HM & Hw & HL & HC) HB HA t b base i x Hpl Hi Hb.
  assert (exists fparts, forall t, (t < pT P)%nat -> asg t = concat (fparts t) /\ Forall2 (partOk (pCap P) bins) (placesOf (pCap P) (pNb P) (pT P) t) (fparts t)) as [fp HF].
  { assert (forall k, (k <= pT P)%nat -> exists fparts, forall t, (t < k)%nat -> asg t = concat (fparts t) /\ Forall2 (partOk (pCap P) bins) (placesOf (pCap P) (pNb P) (pT P) t) (fparts t)) as G.
    { induction k as [|k IH]; intros Hk; [exists (fun _ => []); intros; lia|]. destruct IH as [f Hf]; [lia|]. destruct (HA k ltac:(lia)) as (parts & E & F).
      exists (fun t => if decide (t = k) then parts else f t). intros t' Ht'. destruct (decide (t' = k)) as [->|]; [done|]. apply Hf. lia. }
    by apply G. }
  assert (NoDup (concat (map asg (seq 0 (pT P)))).*1) as ND.
  { assert ((concat (map asg (seq 0 (pT P)))).*1 ≡ₚ concat (map (fun pl : nat * nat * nat => default [] (bins !! pl.1.2)) (places (pCap P) (pNb P) (pT P)))) as E.
    { unfold places. assert (forall ts, (forall t, t ∈ ts -> (t < pT P)%nat) ->
        (concat (map asg ts)).*1 ≡ₚ concat (map (fun pl : nat * nat * nat => default [] (bins !! pl.1.2)) (concat (map (placesOf (pCap P) (pNb P) (pT P)) ts)))) as G.
      { induction ts as [|t0 ts IH]; intros Hts; [done|]. cbn [map concat]. rewrite fmap_app, map_app, concat_app. destruct (HF t0) as [Ea F]; [apply Hts; left|]. rewrite Ea.
        rewrite (Forall2_parts_fst _ _ _ _ F). apply Permutation_app_head. apply IH. intros t' Ht'. apply Hts. by right. }
      apply G. intros t0 Ht0. apply elem_of_seq in Ht0. lia. }
    rewrite E. rewrite (binsOk_all P items bins (places (pCap P) (pNb P) (pT P)) Hnb HB); [apply NoDup_seq|]. by rewrite places_bins. }
  destruct (threadMasks_gen enc inp (map asg (seq 0 (pT P))) 0 (replicate (pN P) 0)) as (_ & _ & A).
  assert (t < pT P)%nat as Ht.
  { unfold places in Hpl. apply elem_of_concat in Hpl as (l & Hl & H). apply elem_of_list_fmap in H as (t' & -> & Ht'). apply placesOf_fst in Hl. cbn in Hl. subst t'. apply elem_of_seq in Ht'. lia. }
  assert ((t, b, base) ∈ placesOf (pCap P) (pNb P) (pT P) t) as Hpl'.
  { destruct (places_exists (pCap P) (pNb P) (pT P) b HT Hw) as (t2 & base2 & H2 & Ht2 & H2'); [subst b; by apply itemBin_lt|].
    destruct (places_unique _ _ _ _ _ _ _ _ HT Hw Hpl H2) as [-> ->]. done. }
  destruct (HF t Ht) as [Easg F]. apply elem_of_list_lookup in Hpl' as [k Hk]. destruct (Forall2_lookup_l _ _ _ _ _ F Hk) as (part & Epart & bin & Ebin & Hfst & _ & HS).
  cbn [fst snd] in *. destruct (binsOk_elem P items bins b i HB) as (bin' & Ebin' & _ & HI); [subst b; by apply itemBin_lt|]. rewrite Ebin in Ebin'. injection Ebin' as <-.
  assert (i ∈ part.*1) as Hin by (rewrite Hfst; apply HI; eauto). apply elem_of_list_fmap in Hin as ([i' s] & E & Hin). cbn in E. subst i'.
  exists (s - base)%nat. pose proof (HS s ltac:(by apply (elem_of_list_fmap_1 snd) in Hin)) as Hs. split; [lia|].
  replace (base + (s - base))%nat with s by lia. unfold threadMasks. rewrite (A ND t (asg t) i s); [done| | |].
  - rewrite (list_lookup_fmap asg), lookup_seq_lt by done. done.
  - rewrite Easg. apply elem_of_concat. exists part. split; [done|]. by eapply elem_of_list_lookup_2.
  - rewrite replicate_length, <- HL. by eapply lookup_lt_Some.
Qed.

(** The sender's slots. *)
Lemma omap_zip_seq {A B} (f : A -> option B) (l : list A) : forall a,
  (omap (fun e : nat * A => match f e.2 with Some x => Some (x, e.1) | None => None end) (zip (seq a (length l)) l)).*1 = omap f l /\
  NoDup (omap (fun e : nat * A => match f e.2 with Some x => Some (x, e.1) | None => None end) (zip (seq a (length l)) l)).*2 /\
  forall s, s ∈ (omap (fun e : nat * A => match f e.2 with Some x => Some (x, e.1) | None => None end) (zip (seq a (length l)) l)).*2 -> (a <= s < a + length l)%nat.
Proof.
  induction l as [|c l IH]; intros a.
  - cbn. split; [done|]. split; [constructor|]. intros s H. by apply elem_of_nil in H.
  - cbn [length seq zip zip_with omap list_omap fst snd]. change (zip_with pair ?x ?y) with (zip x y). destruct (IH (S a)) as (E & ND & L).
    destruct (f c) as [x|].
    + rewrite !fmap_cons. cbn [fst snd]. split; [by f_equal|]. split.
      * constructor; [|done]. intros H. apply L in H. lia.
      * intros s H. apply elem_of_cons in H as [->|H]; [lia|]. apply L in H. lia.
    + split; [done|]. split; [done|]. intros s H. apply L in H. lia.
Qed.

Lemma omap_lookup_seq {A} (l : list A) n : (length l <= n)%nat -> omap (fun i => l !! i) (seq 0 n) = l.
Proof.
  revert n. induction l as [|x l IH] using rev_ind; intros n H.
  - clear H. generalize 0%nat. induction n as [|n IHn]; intros a; [done|]. cbn. apply IHn.
  - rewrite app_length in H. cbn in H. replace n with (length l + (1 + (n - length l - 1)))%nat by lia. rewrite !seq_app, !omap_app.
    cbn [seq Nat.add]. cbn [omap list_omap]. rewrite list_lookup_middle by done. 
    assert (omap (fun i => (l ++ [x]) !! i) (seq 0 (length l)) = l) as E1.
    { etrans; [|apply (IH (length l)); lia]. apply omap_ext_in. intros i Hi. apply elem_of_seq in Hi. apply lookup_app_l. lia. }
    rewrite E1. f_equal. cbn. f_equal. generalize (n - length l - 1)%nat as k.
    assert (forall k a, (length (l ++ [x]) <= a)%nat -> omap (fun i => (l ++ [x]) !! i) (seq a k) = []) as G.
    { induction k as [|k IHk]; intros a Ha; [done|]. cbn. rewrite lookup_ge_None_2 by done. apply IHk. lia. }
    intros k. apply G. rewrite app_length. cbn. lia.
Qed.

Lemma sendAssign_ok cap shuf bins pls : (forall b, shuf b ≡ₚ seq 0 cap) ->
  (forall t b base, (t, b, base) ∈ pls -> exists bin, bins !! b = Some bin /\ (length bin <= cap)%nat) ->
  exists parts, sendAssign shuf bins pls = Some (concat parts) /\ Forall2 (partOk cap bins) pls parts.
Proof.
  intros HS. induction pls as [|[[t b] base] pls IH]; intros HB; cbn [sendAssign]; [by exists []|].
  destruct (HB t b base ltac:(left)) as (bin & E & L). rewrite E. destruct IH as (parts & Ep & F); [intros t' b' base' H; eapply HB; by right|].
  rewrite Ep. eexists (_ :: parts). split; [done|]. constructor; [|done].
  pose proof (omap_zip_seq (fun p => bin !! p) (shuf b) 0) as (E1 & N1 & L1). apply (partOk_shift cap bins t b base bin); [done| |done|].
  - unfold sendSlots. rewrite E1. rewrite (omap_perm _ _ _ (HS b)). by rewrite omap_lookup_seq.
  - intros s Hs. apply L1 in Hs. rewrite (HS b), seq_length in Hs. lia.
Qed.

(** ** The receiver's table *)

Definition findKey (k : N) (tab : list (N * (nat * N))) : option (nat * N) :=
  match list_find (fun e => e.1 = k) tab with Some (_, e) => Some e.2 | None => None end.

Lemma findKey_cons k e tab : findKey k (e :: tab) = if decide (e.1 = k) then Some e.2 else findKey k tab.
Proof. unfold findKey. cbn. destruct (decide (e.1 = k)); [done|]. by destruct (list_find _ tab) as [[]|]. Qed.
Lemma findKey_app k a b : findKey k (a ++ b) = match findKey k a with Some v => Some v | None => findKey k b end.
Proof. induction a as [|e a IH]; [done|]. rewrite <- app_comm_cons, !findKey_cons. by destruct (decide _). Qed.
Lemma findKey_None k tab : findKey k tab = None <-> k ∉ tab.*1.
Proof.
  induction tab as [|e tab IH]; [split; [intros _; apply not_elem_of_nil|done]|]. rewrite findKey_cons, fmap_cons, not_elem_of_cons.
  destruct (decide (e.1 = k)) as [->|NE]; [|rewrite IH; naive_solver]. naive_solver.
Qed.
Lemma findKey_Some k v tab : findKey k tab = Some v -> (k, v) ∈ tab.
Proof.
  induction tab as [|e tab IH]; [done|]. rewrite findKey_cons. destruct (decide (e.1 = k)) as [<-|NE]; intros H.
  - injection H as <-. rewrite <- surjective_pairing. left.
  - right. by apply IH.
Qed.

Lemma recvTable_find es k : findKey k (recvTable es) = findKey k es.
Proof.
  unfold recvTable. assert (forall tab, findKey k (foldl tabInsert tab es) = findKey k (tab ++ es)) as G; [|apply (G [])].
  induction es as [|e es IH]; intros tab; cbn [foldl]; [by rewrite app_nil_r|]. rewrite IH. unfold tabInsert. case_bool_decide as HE.
  - rewrite !findKey_app, findKey_cons. destruct (findKey k tab) eqn:EK; [done|]. destruct (decide (e.1 = k)) as [<-|]; [|done].
    apply findKey_None in EK. done.
  - by rewrite <- app_assoc.
Qed.

(** Look up in a table in which a key determines the entry. *)
Definition funEntries (es : list (N * (nat * N))) : Prop := forall e e', e ∈ es -> e' ∈ es -> e.1 = e'.1 -> e = e'.

Lemma findMask_key P es m : findMask P (recvTable es) m =
  match findKey (m mod 2 ^ keyBits P) es with
  | Some (p, full) => if full mod 2 ^ (8 * pMask P) =? m then Some (N.of_nat (p / pCap P)) else None
  | None => None
  end.
Proof.
  rewrite <- recvTable_find. unfold findMask, findKey. by destruct (list_find _ (recvTable es)) as [[j [k [p full]]]|].
Qed.

Lemma findMask_at P es p full : funEntries es -> (full mod 2 ^ keyBits P, (p, full)) ∈ es ->
  findMask P (recvTable es) (full mod 2 ^ (8 * pMask P)) = Some (N.of_nat (p / pCap P)).
Proof.
  intros FE H. rewrite findMask_key. rewrite mod_mod_pow by (unfold keyBits; lia).
  destruct (findKey (full mod 2 ^ keyBits P) es) as [[p' full']|] eqn:E.
  - apply findKey_Some in E. pose proof (FE _ _ H E eq_refl) as EE. injection EE as <- <-. by rewrite N.eqb_refl.
  - exfalso. apply findKey_None in E. apply E. by apply (elem_of_list_fmap_1 fst) in H.
Qed.

Lemma findMask_none P es full : (forall p full', (full' mod 2 ^ keyBits P, (p, full')) ∈ es -> full' mod 2 ^ keyBits P = full mod 2 ^ keyBits P -> False) ->
  (forall e, e ∈ es -> e.1 = e.2.2 mod 2 ^ keyBits P) ->
  findMask P (recvTable es) (full mod 2 ^ (8 * pMask P)) = None.
Proof.
  intros H K. rewrite findMask_key. rewrite mod_mod_pow by (unfold keyBits; lia).
  destruct (findKey (full mod 2 ^ keyBits P) es) as [[p' full']|] eqn:E; [|done]. apply findKey_Some in E. exfalso.
  pose proof (K _ E) as EK. cbn in EK. rewrite EK in E. by apply (H p' full').
Qed.

Lemma findMask_sub P es es' m y : funEntries es' -> (forall e, e ∈ es -> e ∈ es') -> findMask P (recvTable es) m = Some y -> findMask P (recvTable es') m = Some y.
Proof.
  intros FE HS. rewrite !findMask_key. destruct (findKey _ es) as [[p full]|] eqn:E; [|done]. intros H. apply findKey_Some, HS in E.
  destruct (findKey _ es') as [[p' full']|] eqn:E'.
  - apply findKey_Some in E'. pose proof (FE _ _ E E' eq_refl) as EE. by injection EE as <- <-.
  - exfalso. apply findKey_None in E'. apply E'. by apply (elem_of_list_fmap_1 fst) in E.
Qed.

(** ** Collision freedom *)

Definition fullMask (P : params) (t base l1 l2 : nat) (x : N) : N := N.lxor (pEncR P t (base + l1)%nat (nco P x)) (pEncS P t (base + l2)%nat (nco P x)).

Lemma cf_inj P U t base t' base' l1 l2 l1' l2' x y : (0 < pT P)%nat -> N.of_nat (pNb P) * N.of_nat (pT P) < 2 ^ 64 -> collisionFree P U -> x ∈ U -> y ∈ U ->
  (t, itemBin P x, base) ∈ places (pCap P) (pNb P) (pT P) -> (t', itemBin P y, base') ∈ places (pCap P) (pNb P) (pT P) ->
  (l1 < pCap P)%nat -> (l2 < pCap P)%nat -> (l1' < pCap P)%nat -> (l2' < pCap P)%nat ->
  fullMask P t base l1 l2 x mod 2 ^ keyBits P = fullMask P t' base' l1' l2' y mod 2 ^ keyBits P -> x = y /\ l1 = l1' /\ l2 = l2'.
Proof.
  intros HT Hw CF Hx Hy Hpx Hpy L1 L2 L1' L2' E. unfold collisionFree in CF. set (key := fun m => m mod 2 ^ keyBits P) in *.
  rewrite <- concat_map_map in CF. rewrite map_map in CF.
  assert (forall z tz bz a c, (tz, itemBin P z, bz) ∈ places (pCap P) (pNb P) (pT P) -> (a < pCap P)%nat -> (c < pCap P)%nat ->
    key (fullMask P tz bz a c z) ∈ map key (allMasks P z)) as IN.
  { intros z tz bz a c Hp Ha Hc. apply (elem_of_list_fmap_1 key). unfold allMasks. apply elem_of_concat. eexists. split; [|apply (elem_of_list_fmap_1 _ _ _ Hp)].
    cbn beta iota. rewrite Nat.eqb_refl. apply elem_of_concat. eexists. split; [|apply elem_of_list_fmap; exists a; split; [reflexivity|apply elem_of_seq; lia]].
    apply elem_of_list_fmap. exists c. split; [done|apply elem_of_seq; lia]. }
  assert (x = y) as <-.
  { apply (NoDup_concat_map_inj (fun z => map key (allMasks P z)) U x y (key (fullMask P t base l1 l2 x))); [done|done|done|by apply IN|].
    unfold key at 1. cbn beta. rewrite E. by apply IN. }
  split; [done|]. destruct (places_unique _ _ _ _ _ _ _ _ HT Hw Hpx Hpy) as [<- <-].
  assert (NoDup (map key (allMasks P x))) as ND.
  { apply (NoDup_concat_part _ _ CF). by apply (elem_of_list_fmap_1 (fun z => map key (allMasks P z))). }
  unfold allMasks in ND. rewrite <- concat_map_map, map_map in ND.
  assert (NoDup (map key (concat (map (fun l1 => map (fun l2 => fullMask P t base l1 l2 x) (seq 0 (pCap P))) (seq 0 (pCap P)))))) as ND2.
  { apply (NoDup_concat_part _ _ ND). apply elem_of_list_fmap. exists (t, itemBin P x, base). split; [|done]. by rewrite Nat.eqb_refl. }
  rewrite <- concat_map_map, map_map in ND2.
  assert (l1 = l1') as <-.
  { apply (NoDup_concat_map_inj _ _ l1 l1' (key (fullMask P t base l1 l2 x)) ND2); [apply elem_of_seq; lia|apply elem_of_seq; lia| |].
    - apply (elem_of_list_fmap_1 key), elem_of_list_fmap. exists l2. split; [done|apply elem_of_seq; lia].
    - unfold key at 1. cbn beta. rewrite E. apply (elem_of_list_fmap_1 key), elem_of_list_fmap. exists l2'. split; [done|apply elem_of_seq; lia]. }
  split; [done|]. assert (NoDup (map key (map (fun l2 => fullMask P t base l1 l2 x) (seq 0 (pCap P))))) as ND3.
  { apply (NoDup_concat_part _ _ ND2). apply elem_of_list_fmap. exists l1. split; [done|apply elem_of_seq; lia]. }
  rewrite map_map in ND3. apply (NoDup_map_inj_on _ _ l2 l2' ND3); [apply elem_of_seq; lia|apply elem_of_seq; lia|done].
Qed.

(** ** The sender's buffer *)

Lemma placeRows_gen rows : forall perm buf, length perm = length rows -> NoDup perm -> (forall p, p ∈ perm -> (p < length buf)%nat) ->
  exists res, placeRows perm rows buf = Some res /\ length res = length buf /\ (forall p, p ∉ perm -> res !! p = buf !! p) /\
    forall k p r, perm !! k = Some p -> rows !! k = Some r -> res !! p = Some r.
Proof.
  induction rows as [|r rows IH]; intros perm buf L ND HL; cbn [placeRows].
  - exists buf. split; [by destruct perm|]. split; [done|]. split; [done|]. intros k p r' _ H. by rewrite lookup_nil in H.
  - destruct perm as [|p perm]; [done|]. cbn in L. apply NoDup_cons in ND as [NI ND]. assert (p < length buf)%nat as Hp by (apply HL; left).
    cbn [placeRows]. assert ((p <? length buf)%nat = true) as -> by (apply Nat.ltb_lt; done).
    destruct (IH perm (<[p := r]> buf)) as (res & E & Lr & O & A); [lia|done|intros q Hq; rewrite insert_length; apply HL; by right|].
    exists res. split; [done|]. split; [by rewrite Lr, insert_length|]. split.
    + intros q Hq. apply not_elem_of_cons in Hq as [Hq1 Hq2]. rewrite O by done. by apply list_lookup_insert_ne.
    + intros [|k] q r' Hk Hr; cbn in Hk, Hr.
      * injection Hk as <-. injection Hr as <-. rewrite O by done. by apply list_lookup_insert.
      * by apply (A k).
Qed.

Lemma placeRows_perm perm rows buf : perm ≡ₚ seq 0 (length buf) -> length rows = length buf ->
  exists res, placeRows perm rows buf = Some res /\ res ≡ₚ rows.
Proof.
  intros HP L. destruct (placeRows_gen rows perm buf) as (res & E & Lr & _ & A).
  - by rewrite HP, seq_length.
  - rewrite HP. apply NoDup_seq.
  - intros p Hp. rewrite HP in Hp. apply elem_of_seq in Hp. lia.
  - exists res. split; [done|]. assert (map (fun p => default [] (res !! p)) (seq 0 (length buf)) = res) as <-.
    { apply list_eq. intros i. rewrite (list_lookup_fmap (fun p => default [] (res !! p))). destruct (decide (i < length buf)%nat) as [H|H].
      - rewrite lookup_seq_lt by done. cbn. destruct (lookup_lt_is_Some_2 res i ltac:(lia)) as [r ->]. done.
      - rewrite lookup_seq_ge by lia. cbn. symmetry. apply lookup_ge_None_2. lia. }
    rewrite <- (Permutation_map (fun p => default [] (res !! p)) HP). assert (length perm = length buf) as LP by (by rewrite HP, seq_length).
    assert (map (fun p => default [] (res !! p)) perm = rows) as ->; [|done].
    apply list_eq. intros k. rewrite (list_lookup_fmap (fun p => default [] (res !! p))). destruct (decide (k < length buf)%nat) as [H|H].
    + destruct (lookup_lt_is_Some_2 perm k ltac:(lia)) as [p Hp]. destruct (lookup_lt_is_Some_2 rows k ltac:(lia)) as [r Hr]. rewrite Hp, Hr. cbn. by rewrite (A k p r).
    + rewrite (lookup_ge_None_2 perm) by lia. rewrite (lookup_ge_None_2 rows) by lia. done.
Qed.

Lemma chunks_take {A} per (buf : list A) chunks : concat (map (chunk per buf) (seq 0 chunks)) = take (chunks * per) buf.
Proof.
  induction chunks as [|c IH]; [done|]. rewrite seq_S, map_app, concat_app, IH. cbn [map concat Nat.add]. rewrite app_nil_r. unfold chunk.
  rewrite <- (take_drop (c * per) buf) at 3. replace (S c * per)%nat with (c * per + per)%nat by lia.
  rewrite take_drop, <- take_take_drop. done.
Qed.

Lemma channelChunks_perm {A} per chunks T (buf : list A) : (0 < T)%nat -> (length buf <= chunks * per)%nat ->
  concat (map (channelChunks per chunks T buf) (seq 0 T)) ≡ₚ buf.
Proof.
  intros HT HL. transitivity (concat (map (chunk per buf) (seq 0 chunks))); [|by rewrite chunks_take, take_ge].
  assert (map (channelChunks per chunks T buf) (seq 0 T) = map (fun t => concat (map (chunk per buf) (filter (fun i => map (fun i => i mod T)%nat (seq 0 chunks) !! i = Some t) (seq 0 chunks)))) (seq 0 T)) as ->.
  { apply map_ext. intros t. unfold channelChunks. f_equal. f_equal. apply filter_ext_in. intros i Hi. apply elem_of_seq in Hi.
    rewrite (list_lookup_fmap (fun i => i mod T)%nat), lookup_seq_lt by lia. cbn. split; [by intros ->|]. intros E. by injection E. }
  rewrite <- (map_map (fun t => filter (fun i => map (fun i => i mod T)%nat (seq 0 chunks) !! i = Some t) (seq 0 chunks)) (fun l => concat (map (chunk per buf) l))).
  assert (forall ls : list (list nat), concat (map (fun l => concat (map (chunk per buf) l)) ls) = concat (map (chunk per buf) (concat ls))) as G.
  { induction ls as [|l ls IH]; [done|]. cbn. by rewrite map_app, concat_app, IH. }
  rewrite G. apply Permutation_concat_map. rewrite (filter_bins _ _ T T) by lia. rewrite filter_all; [done|].
  intros i Hi. apply elem_of_seq in Hi. rewrite (list_lookup_fmap (fun i => i mod T)%nat), lookup_seq_lt by lia. cbn. apply Nat.mod_upper_bound. lia.
Qed.

Lemma chunks_cover num T : 0 < num -> 0 < T -> num <= numChunks num T * masksPer num T.
Proof.
  intros H1 H2. unfold numChunks. assert (0 < masksPer num T) as H.
  { unfold masksPer. apply N.min_glb_lt; [done|]. apply N.div_str_pos. lia. }
  revert H. generalize (masksPer num T) as p. clear. intros p H. pose proof (N.div_mod (num + (p - 1)) p ltac:(lia)) as E. pose proof (N.mod_lt (num + (p - 1)) p ltac:(lia)) as L.
  rewrite N.mul_comm. generalize dependent (p * ((num + (p - 1)) / p)). intros q E. lia.
Qed.

(** ** The run *)

Definition posIn (R : list N) (y : N) : option N := match list_find (fun x => x = y) R with Some (i, _) => Some (N.of_nat i) | None => None end.

Record runFacts (P : params) (rd : rand) (R S old : list N) (binsR : list (list nat)) (masksR : list N) (js : list nat) (row : nat -> list N) (res : result) : Prop := {
  rfBinsR : binsOk P R binsR;
  rfMR : forall t b base i x, (t, b, base) ∈ places (pCap P) (pNb P) (pT P) -> R !! i = Some x -> itemBin P x = b ->
    exists s, (s < pCap P)%nat /\ masksR !! i = Some (pEncR P t (base + s)%nat (nco P x));
  rfJs : js ≡ₚ seq 0 (pN P);
  rfRow : forall t b base j y, (t, b, base) ∈ places (pCap P) (pNb P) (pT P) -> S !! j = Some y -> itemBin P y = b ->
    exists s, (s < pCap P)%nat /\ row j = map (fun l => fullMask P t base l s y mod 2 ^ (8 * pMask P)) (seq 0 (pCap P));
  rfRes : exists chans : nat -> list N, concat (map chans (seq 0 (pT P))) ≡ₚ concat (map row js) /\
    res = mkResult (old ++ concat (map (fun t => omap (findMask P (recvTable (recvEntries P (map (nco P) R) masksR binsR t))) (chans t)) (rOut rd))) (inputsAfter P R) (inputsAfter P S) }.

Lemma run_facts P rd R S old : paramsOk P R -> paramsOk P S -> randOk P rd ->
  exists binsR masksR js row res, rr17aRun P rd R S old = Done res /\ runFacts P rd R S old binsR masksR js row res.
Proof.
  intros HR HS HD. pose proof HR as (Hn & Hnb & Hcap & HT & HM & Hw & HLR & HCR). pose proof HS as (_ & _ & _ & _ & _ & _ & HLS & HCS).
  destruct HD as (D1 & D2 & D3 & D4 & D5 & D6). destruct (mkBins_ok P R _ HR D3) as (binsR & ER & OR). destruct (mkBins_ok P S _ HS D4) as (binsS & ES & OS).
  unfold rr17aRun. rewrite HLR, HLS, Nat.eqb_refl. cbn [negb orb]. assert ((16 <? pMask P) = false) as -> by (apply N.ltb_ge; done).
  assert ((pN P * pCap P =? 0)%nat = false) as -> by (apply Nat.eqb_neq; lia). rewrite ER, ES.
  assert (forall bins items t b base, binsOk P items bins -> (forall b, (load P items b <= pCap P)%nat) -> (t < pT P)%nat -> (t, b, base) ∈ placesOf (pCap P) (pNb P) (pT P) t ->
    exists bin, bins !! b = Some bin /\ (length bin <= pCap P)%nat) as BIN.
  { intros bins items t b base O HC Ht Hpl. assert (b < pNb P)%nat as Hb.
    { assert (b ∈ seq 0 (pNb P)) as Hb; [|apply elem_of_seq in Hb; lia]. rewrite <- (places_bins (pCap P) (pNb P) (pT P) HT Hw).
      apply elem_of_list_fmap. exists (t, b, base). split; [done|]. unfold places. apply elem_of_concat. eexists. split; [exact Hpl|].
      apply elem_of_list_fmap. exists t. split; [done|]. apply elem_of_seq. lia. }
    destruct (binsOk_elem P items bins b 0 O Hb) as (bin & E & _). exists bin. split; [done|]. by eapply binsOk_length. }
  set (fR := fun t => recvAssign (pCap P) (rDraw rd) binsR (placesOf (pCap P) (pNb P) (pT P) t) (seq 0 (pCap P))).
  set (fS := fun t => sendAssign (rShuf rd) binsS (placesOf (pCap P) (pNb P) (pT P) t)).
  assert (forall t, (t < pT P)%nat -> exists parts, fR t = Some (concat parts) /\ Forall2 (partOk (pCap P) binsR) (placesOf (pCap P) (pNb P) (pT P) t) parts) as AR.
  { intros t Ht. apply recvAssign_ok; [done|]. intros t' b base H. pose proof (placesOf_fst _ _ _ _ _ H) as E. cbn in E. subst t'. by eapply BIN. }
  assert (forall t, (t < pT P)%nat -> exists parts, fS t = Some (concat parts) /\ Forall2 (partOk (pCap P) binsS) (placesOf (pCap P) (pNb P) (pT P) t) parts) as AS.
  { intros t Ht. apply sendAssign_ok; [done|]. intros t' b base H. pose proof (placesOf_fst _ _ _ _ _ H) as E. cbn in E. subst t'. by eapply BIN. }
  set (gR := fun t => default [] (fR t)). set (gS := fun t => default [] (fS t)).
  assert (mapM fR (seq 0 (pT P)) = Some (map gR (seq 0 (pT P)))) as ->.
  { apply mapM_total. intros t Ht. apply elem_of_seq in Ht. destruct (AR t ltac:(lia)) as (parts & E & _). unfold gR. by rewrite E. }
  assert (mapM fS (seq 0 (pT P)) = Some (map gS (seq 0 (pT P)))) as ->.
  { apply mapM_total. intros t Ht. apply elem_of_seq in Ht. destruct (AS t ltac:(lia)) as (parts & E & _). unfold gS. by rewrite E. }
  set (masksR := threadMasks (pEncR P) (map (nco P) R) (map gR (seq 0 (pT P))) (replicate (pN P) 0)).
  set (masksS := threadMasks (pEncS P) (map (nco P) S) (map gS (seq 0 (pT P))) (replicate (pN P) 0)).
  set (trunc := fun m => m mod 2 ^ (8 * pMask P)).
  assert (forall t, (t < pT P)%nat -> exists parts, gR t = concat parts /\ Forall2 (partOk (pCap P) binsR) (placesOf (pCap P) (pNb P) (pT P) t) parts) as AR'.
  { intros t Ht. destruct (AR t Ht) as (parts & E & F). exists parts. split; [|done]. unfold gR. by rewrite E. }
  assert (forall t, (t < pT P)%nat -> exists parts, gS t = concat parts /\ Forall2 (partOk (pCap P) binsS) (placesOf (pCap P) (pNb P) (pT P) t) parts) as AS'.
  { intros t Ht. destruct (AS t Ht) as (parts & E & F). exists parts. split; [|done]. unfold gS. by rewrite E. }
  pose proof (party_masks P R binsR (pEncR P) (map (nco P) R) gR HR OR AR') as MR. pose proof (party_masks P S binsS (pEncS P) (map (nco P) S) gS HS OS AS') as MS.
  set (row := fun j => match list_find (fun pl : nat * nat * nat => pl.1.2 = itemBin P (default 0 (S !! j))) (places (pCap P) (pNb P) (pT P)) with
                       | Some (_, (t, _, base)) => map trunc (itemMasks (pEncR P) (pCap P) (map (nco P) S) masksS t base j) | None => [] end).
  assert (forall t b base j y, (t, b, base) ∈ places (pCap P) (pNb P) (pT P) -> S !! j = Some y -> itemBin P y = b ->
    row j = map trunc (itemMasks (pEncR P) (pCap P) (map (nco P) S) masksS t base j)) as ROW.
  { intros t b base j y Hpl Hj Hb. unfold row. rewrite Hj. cbn [default]. unfold id. rewrite Hb.
    destruct (list_find (fun pl : nat * nat * nat => pl.1.2 = b) (places (pCap P) (pNb P) (pT P))) as [[k [[t' b'] base']]|] eqn:E.
    - apply list_find_Some in E as (Ek & E & _). cbn in E. subst b'. destruct (places_unique _ _ _ _ _ _ _ _ HT Hw Hpl (elem_of_list_lookup_2 _ _ _ Ek)) as [-> ->]. done.
    - apply list_find_None in E. rewrite Forall_forall in E. exfalso. by apply (E _ Hpl). }
  set (js := concat (map (fun pl : nat * nat * nat => default [] (binsS !! pl.1.2)) (rPlaces rd))).
  assert (js ≡ₚ seq 0 (pN P)) as HJ.
  { unfold js. rewrite <- HLS. apply (binsOk_all P S binsS); [done|done|]. rewrite (Permutation_map _ D5), places_bins by done. done. }
  assert (sendRows P (map (nco P) S) masksS binsS (rPlaces rd) = map row js) as ESR.
  { unfold sendRows, js. rewrite <- concat_map_map, map_map. f_equal. apply map_ext_in. intros [[t b] base] Hpl. cbn [fst snd]. apply map_ext_in. intros j Hj.
    apply elem_of_list_In in Hpl, Hj. rewrite D5 in Hpl. assert (b < pNb P)%nat as Hb.
    { assert (b ∈ seq 0 (pNb P)) as Hb; [|apply elem_of_seq in Hb; lia]. rewrite <- (places_bins (pCap P) (pNb P) (pT P) HT Hw). apply elem_of_list_fmap. by exists (t, b, base). }
    destruct (binsOk_elem P S binsS b j OS Hb) as (bin & Eb & _ & HI). rewrite Eb in Hj. apply HI in Hj as (y & Ey & Hy). symmetry. by apply (ROW t b base j y). }
  rewrite ESR. destruct (placeRows_perm (rMaskPerm rd) (map row js) (replicate (pN P) (replicate (pCap P) 0))) as (rows & EP & HP).
  { by rewrite replicate_length. }
  { by rewrite map_length, HJ, seq_length, replicate_length. }
  rewrite EP. exists binsR, masksR, js, row. eexists. split; [reflexivity|].
  assert (forall t b base j y, (t, b, base) ∈ places (pCap P) (pNb P) (pT P) -> S !! j = Some y -> itemBin P y = b ->
    exists s, (s < pCap P)%nat /\ row j = map (fun l => fullMask P t base l s y mod 2 ^ (8 * pMask P)) (seq 0 (pCap P))) as ROW2.
  { intros t b base j y Hpl Hj Hb. destruct (MS t b base j y Hpl Hj Hb) as (s & Hs & Es). exists s. split; [done|]. rewrite (ROW t b base j y Hpl Hj Hb).
    unfold itemMasks. rewrite map_map. apply map_ext. intros l. fold masksS in Es. rewrite Es. rewrite (list_lookup_fmap (nco P)), Hj. done. }
  split; [done| |done|done|].
  - intros t b base i x Hpl Hi Hb. destruct (MR t b base i x Hpl Hi Hb) as (s & Hs & Es). exists s. split; [done|]. rewrite (list_lookup_fmap (nco P)), Hi in Es. exact Es.
  - eexists. split; [|reflexivity]. etrans; [apply channelChunks_perm; [done|]|by apply Permutation_concat'].
    assert (length (concat rows) = pN P * pCap P)%nat as ->.
    { rewrite (Permutation_concat' _ _ HP). assert (length js = pN P) as <- by (by rewrite HJ, seq_length).
      assert (forall j, j ∈ js -> length (row j) = pCap P) as LR.
      { intros j Hj. rewrite HJ in Hj. apply elem_of_seq in Hj. destruct (lookup_lt_is_Some_2 S j ltac:(lia)) as [y Hy].
        destruct (places_exists (pCap P) (pNb P) (pT P) (itemBin P y) HT Hw (itemBin_lt P y Hnb)) as (t & base & Hpl & _).
        destruct (ROW2 _ _ _ j y Hpl Hy eq_refl) as (s & _ & ->). by rewrite map_length, seq_length. }
      clear -LR. induction js as [|j js IH]; [done|]. cbn. rewrite app_length, LR by left. rewrite IH; [done|]. intros j' H. apply LR. by right. }
    pose proof (chunks_cover (N.of_nat (pN P * pCap P)) (N.of_nat (pT P)) ltac:(lia) ltac:(lia)) as HC.
    rewrite <- N2Nat.inj_mul. clear -HC. generalize dependent (numChunks (N.of_nat (pN P * pCap P)) (N.of_nat (pT P)) * masksPer (N.of_nat (pN P * pCap P)) (N.of_nat (pT P))). intros q HC. lia.
Qed.

Definition allEntries (P : params) (R masksR : list N) (binsR : list (list nat)) : list (N * (nat * N)) :=
  concat (map (recvEntries P (map (nco P) R) masksR binsR) (seq 0 (pT P))).

Section Entries.
  Context (P : params) (rd : rand) (R S old : list N) (binsR : list (list nat)) (masksR : list N) (js : list nat) (row : nat -> list N) (res : result).
  Hypothesis (HR : paramsOk P R) (RF : runFacts P rd R S old binsR masksR js row res).

  Lemma entry_elem t e : (t < pT P)%nat -> e ∈ recvEntries P (map (nco P) R) masksR binsR t ->
    exists base i x l s, (t, itemBin P x, base) ∈ places (pCap P) (pNb P) (pT P) /\ R !! i = Some x /\ (l < pCap P)%nat /\ (s < pCap P)%nat /\
      masksR !! i = Some (pEncR P t (base + s)%nat (nco P x)) /\ e = (fullMask P t base s l x mod 2 ^ keyBits P, ((i * pCap P + l)%nat, fullMask P t base s l x)).
  Proof using HR RF.
    destruct HR as (Hn & Hnb & Hcap & HT & HM & Hw & HLR & HCR). intros Ht H. unfold recvEntries in H. apply elem_of_concat in H as (l1 & He & H).
    apply elem_of_list_fmap in H as ([[t' b] base] & -> & Hpl). pose proof (placesOf_fst _ _ _ _ _ Hpl) as E. cbn in E. subst t'.
    apply elem_of_concat in He as (l2 & He & H). apply elem_of_list_fmap in H as (i & -> & Hi).
    assert ((t, b, base) ∈ places (pCap P) (pNb P) (pT P)) as Hpl'.
    { unfold places. apply elem_of_concat. eexists. split; [exact Hpl|]. apply elem_of_list_fmap. exists t. split; [done|]. apply elem_of_seq. lia. }
    assert (b < pNb P)%nat as Hb.
    { assert (b ∈ seq 0 (pNb P)) as Hb; [|apply elem_of_seq in Hb; lia]. rewrite <- (places_bins (pCap P) (pNb P) (pT P) HT Hw). apply elem_of_list_fmap. by exists (t, b, base). }
    destruct (binsOk_elem P R binsR b i (rfBinsR _ _ _ _ _ _ _ _ _ _ RF) Hb) as (bin & Eb & _ & HI). rewrite Eb in Hi. apply HI in Hi as (x & Ex & Hx). subst b.
    destruct (rfMR _ _ _ _ _ _ _ _ _ _ RF _ _ _ _ _ Hpl' Ex eq_refl) as (s & Hs & Es).
    apply elem_of_lookup_imap_1 in He as (l & m & -> & Hl). unfold itemMasks in Hl. rewrite (list_lookup_fmap (fun l => N.lxor _ _)) in Hl.
    destruct (seq 0 (pCap P) !! l) as [l'|] eqn:El; [|done]. apply lookup_seq in El as [-> El]. cbn in Hl. injection Hl as <-.
    exists base, i, x, l, s. split; [done|]. split; [done|]. split; [done|]. split; [done|]. split; [done|].
    rewrite Es, (list_lookup_fmap (nco P)), Ex. cbn [default fmap option_fmap option_map]. unfold id, fullMask. rewrite (N.lxor_comm (pEncR P _ _ _)). done.
  Qed.

  Lemma elem_entry t base i x l s : (t < pT P)%nat -> (t, itemBin P x, base) ∈ placesOf (pCap P) (pNb P) (pT P) t -> R !! i = Some x -> (l < pCap P)%nat ->
    masksR !! i = Some (pEncR P t (base + s)%nat (nco P x)) ->
    (fullMask P t base s l x mod 2 ^ keyBits P, ((i * pCap P + l)%nat, fullMask P t base s l x)) ∈ recvEntries P (map (nco P) R) masksR binsR t.
  Proof using HR RF.
    destruct HR as (Hn & Hnb & Hcap & HT & HM & Hw & HLR & HCR). intros Ht Hpl Ex Hl Es. unfold recvEntries. apply elem_of_concat. eexists. split; [|apply (elem_of_list_fmap_1 _ _ _ Hpl)].
    cbn beta iota. apply elem_of_concat. eexists. split.
    2:{ apply (elem_of_list_fmap_1 (fun i => imap _ _) _ i). destruct (binsOk_elem P R binsR (itemBin P x) i (rfBinsR _ _ _ _ _ _ _ _ _ _ RF) (itemBin_lt P x Hnb)) as (bin & Eb & _ & HI). rewrite Eb. apply HI. eauto. }
    apply elem_of_list_lookup. exists l. rewrite list_lookup_imap. unfold itemMasks. rewrite (list_lookup_fmap (fun l => N.lxor _ _)), lookup_seq_lt by done.
    cbn [fmap option_fmap option_map Nat.add]. rewrite Es, (list_lookup_fmap (nco P)), Ex. cbn [default fmap option_fmap option_map]. unfold id, fullMask. rewrite (N.lxor_comm (pEncR P _ _ _)). done.
  Qed.

  Lemma all_fun U : collisionFree P U -> NoDup R -> (forall x, x ∈ R -> x ∈ U) -> funEntries (allEntries P R masksR binsR).
  Proof using HR RF.
    pose proof HR as (Hn & Hnb & Hcap & HT & HM & Hw & HLR & HCR). intros CF ND HU e e' H H' E. unfold allEntries in H, H'.
    apply elem_of_concat in H as (l1 & He & H). apply elem_of_list_fmap in H as (t & -> & Ht). apply elem_of_concat in H' as (l1' & He' & H'). apply elem_of_list_fmap in H' as (t' & -> & Ht').
    apply elem_of_seq in Ht, Ht'. destruct (entry_elem t e ltac:(lia) He) as (base & i & x & l & s & Hpl & Ex & Hl & Hs & Es & ->).
    destruct (entry_elem t' e' ltac:(lia) He') as (base' & i' & x' & l' & s' & Hpl' & Ex' & Hl' & Hs' & Es' & ->). cbn [fst] in E.
    destruct (cf_inj P U t base t' base' s l s' l' x x' HT Hw CF) as (-> & -> & ->); try done.
    - apply HU. by eapply elem_of_list_lookup_2.
    - apply HU. by eapply elem_of_list_lookup_2.
    - destruct (places_unique _ _ _ _ _ _ _ _ HT Hw Hpl Hpl') as [-> ->]. rewrite (NoDup_lookup R i i' x' ND Ex Ex'). done.
  Qed.

  (** A common item is found by its mask. *)
  Lemma find_common U i j x : collisionFree P U -> NoDup R -> (forall x, x ∈ R -> x ∈ U) -> R !! i = Some x -> S !! j = Some x ->
    exists l m, row j !! l = Some m /\ findMask P (recvTable (allEntries P R masksR binsR)) m = Some (N.of_nat i) /\
      ((forall y, y ∈ S -> y ∈ U) -> forall l' m', row j !! l' = Some m' -> l' <> l -> findMask P (recvTable (allEntries P R masksR binsR)) m' = None).
  Proof using HR RF.
    pose proof HR as (Hn & Hnb & Hcap & HT & HM & Hw & HLR & HCR). intros CF ND HU Ex Ey.
    destruct (places_exists (pCap P) (pNb P) (pT P) (itemBin P x) HT Hw (itemBin_lt P x Hnb)) as (t & base & Hpl & Ht & Hpl').
    destruct (rfMR _ _ _ _ _ _ _ _ _ _ RF _ _ _ _ _ Hpl Ex eq_refl) as (s1 & Hs1 & Es1). destruct (rfRow _ _ _ _ _ _ _ _ _ _ RF _ _ _ _ _ Hpl Ey eq_refl) as (s2 & Hs2 & ER).
    exists s1. eexists. split; [|split].
    - rewrite ER, (list_lookup_fmap (fun l => fullMask P t base l s2 x mod 2 ^ (8 * pMask P))), lookup_seq_lt by done. cbn. reflexivity.
    - cbn [Nat.add]. pose proof (elem_entry t base i x s2 s1 Ht Hpl' Ex Hs2 Es1) as IN. rewrite (findMask_at P (allEntries P R masksR binsR) (i * pCap P + s2)).
      + f_equal. f_equal. rewrite Nat.add_comm, Nat.div_add by lia. rewrite Nat.div_small by done. done.
      + by eapply all_fun.
      + unfold allEntries. apply elem_of_concat. eexists. split; [exact IN|]. apply (elem_of_list_fmap_1 (recvEntries P (map (nco P) R) masksR binsR)). apply elem_of_seq. lia.
    - intros HUS l' m' Hl' NE. rewrite ER, (list_lookup_fmap (fun l => fullMask P t base l s2 x mod 2 ^ (8 * pMask P))) in Hl'. destruct (seq 0 (pCap P) !! l') as [l''|] eqn:El; [|done].
      apply lookup_seq in El as [-> El]. cbn in Hl'. injection Hl' as <-. apply findMask_none.
      + intros p full' Hin E. unfold allEntries in Hin. apply elem_of_concat in Hin as (l1 & He & H). apply elem_of_list_fmap in H as (t' & -> & Ht'). apply elem_of_seq in Ht'.
        destruct (entry_elem t' _ ltac:(lia) He) as (base' & i' & x' & l2 & s' & Hplx & Ex' & Hl2 & Hs' & Es' & EE). injection EE as _ -> ->.
        destruct (cf_inj P U t' base' t base s' l2 l' s2 x' x HT Hw CF) as (-> & -> & ->); try done.
        * apply HU. by eapply elem_of_list_lookup_2.
        * apply HU. by eapply elem_of_list_lookup_2.
        * destruct (places_unique _ _ _ _ _ _ _ _ HT Hw Hpl Hplx) as [<- <-]. rewrite (NoDup_lookup R i' i x ND Ex' Ex) in Es'. rewrite Es1 in Es'.
          destruct (rfMR _ _ _ _ _ _ _ _ _ _ RF _ _ _ _ _ Hpl Ex eq_refl) as (s3 & Hs3 & Es3). injection Es' as Es'. apply NE.
          assert (fullMask P t base l' s2 x mod 2 ^ keyBits P = fullMask P t base s1 s2 x mod 2 ^ keyBits P) as E2 by (unfold fullMask; by rewrite Es').
          destruct (cf_inj P U t base t base l' s2 s1 s2 x x HT Hw CF) as (_ & -> & _); try done; apply HU; by eapply elem_of_list_lookup_2.
      + intros e He. unfold allEntries in He. apply elem_of_concat in He as (l1 & He & H). apply elem_of_list_fmap in H as (t' & -> & Ht'). apply elem_of_seq in Ht'.
        destruct (entry_elem t' _ ltac:(lia) He) as (base' & i' & x' & l2 & s' & Hplx & Ex' & Hl2 & Hs' & Es' & ->). done.
  Qed.

  (** Other items are not. *)
  Lemma find_other U j y : collisionFree P U -> (forall x, x ∈ R -> x ∈ U) -> (forall x, x ∈ S -> x ∈ U) -> S !! j = Some y -> y ∉ R ->
    forall m, m ∈ row j -> findMask P (recvTable (allEntries P R masksR binsR)) m = None.
  Proof using HR RF.
    pose proof HR as (Hn & Hnb & Hcap & HT & HM & Hw & HLR & HCR). intros CF HUR HUS Ey NI m Hm.
    destruct (places_exists (pCap P) (pNb P) (pT P) (itemBin P y) HT Hw (itemBin_lt P y Hnb)) as (t & base & Hpl & Ht & Hpl').
    destruct (rfRow _ _ _ _ _ _ _ _ _ _ RF _ _ _ _ _ Hpl Ey eq_refl) as (s2 & Hs2 & ER). rewrite ER in Hm. apply elem_of_list_fmap in Hm as (l & -> & Hl). apply elem_of_seq in Hl.
    apply findMask_none.
    - intros p full' Hin E. unfold allEntries in Hin. apply elem_of_concat in Hin as (l1 & He & H). apply elem_of_list_fmap in H as (t' & -> & Ht'). apply elem_of_seq in Ht'.
      destruct (entry_elem t' _ ltac:(lia) He) as (base' & i' & x' & l2 & s' & Hplx & Ex' & Hl2 & Hs' & Es' & EE). injection EE as _ -> ->.
      destruct (cf_inj P U t' base' t base s' l2 l s2 x' y HT Hw CF) as (-> & _ & _); try done; try lia.
      + apply HUR. by eapply elem_of_list_lookup_2.
      + apply HUS. by eapply elem_of_list_lookup_2.
      + apply NI. by eapply elem_of_list_lookup_2.
    - intros e He. unfold allEntries in He. apply elem_of_concat in He as (l1 & He & H). apply elem_of_list_fmap in H as (t' & -> & Ht'). apply elem_of_seq in Ht'.
      destruct (entry_elem t' _ ltac:(lia) He) as (base' & i' & x' & l2 & s' & Hplx & Ex' & Hl2 & Hs' & Es' & ->). done.
  Qed.

  (** With all masks in one table, the result is the intersection. *)
  Lemma find_all U : paramsOk P S -> collisionFree P U -> NoDup R -> (forall x, x ∈ R -> x ∈ U) -> (forall x, x ∈ S -> x ∈ U) ->
    omap (findMask P (recvTable (allEntries P R masksR binsR))) (concat (map row js)) ≡ₚ commonPositions R S.
  Proof using HR RF.
    intros (_ & _ & _ & _ & _ & _ & HLS & _) CF ND HUR HUS. rewrite omap_concat, map_map.
    assert (forall j y, S !! j = Some y -> omap (findMask P (recvTable (allEntries P R masksR binsR))) (row j) = match posIn R y with Some p => [p] | None => [] end) as ROW.
    { intros j y Ey. unfold posIn. destruct (list_find (fun x => x = y) R) as [[i x]|] eqn:EF.
      - apply list_find_Some in EF as (Ex & -> & _). destruct (find_common U i j y CF ND HUR Ex Ey) as (l & m & Hm & F1 & F2).
        rewrite <- (take_drop_middle _ _ _ Hm). rewrite omap_app. cbn [omap list_omap]. rewrite F1. specialize (F2 HUS).
        assert (forall ls, (forall m', m' ∈ ls -> findMask P (recvTable (allEntries P R masksR binsR)) m' = None) -> omap (findMask P (recvTable (allEntries P R masksR binsR))) ls = []) as NIL.
        { induction ls as [|a ls IH]; intros H; [done|]. cbn. rewrite H by left. apply IH. intros m' Hm'. apply H. by right. }
        rewrite NIL, NIL; [done| |].
        + intros m' Hm'. apply elem_of_list_lookup in Hm' as [k Hk]. rewrite lookup_drop in Hk. apply (F2 _ _ Hk). lia.
        + intros m' Hm'. apply elem_of_list_lookup in Hm' as [k Hk]. apply lookup_take_Some in Hk as [Hk Lk]. apply (F2 _ _ Hk). lia.
      - apply list_find_None in EF. rewrite Forall_forall in EF. assert (y ∉ R) as NI by (intros H; by apply (EF y H)).
        pose proof (find_other U j y CF HUR HUS Ey NI) as FO. induction (row j) as [|a ls IH]; [done|]. cbn. rewrite FO by left. apply IH. intros m' Hm'. apply FO. by right. }
    rewrite (Permutation_concat_map _ _ _ (rfJs _ _ _ _ _ _ _ _ _ _ RF)). rewrite <- HLS. clear js RF. unfold commonPositions.
    assert (map (fun j => omap (findMask P (recvTable (allEntries P R masksR binsR))) (row j)) (seq 0 (length S)) = map (fun y => match posIn R y with Some p => [p] | None => [] end) S) as ->.
    { apply list_eq. intros j. rewrite (list_lookup_fmap (fun j => omap _ (row j))), (list_lookup_fmap (fun y => match posIn R y with Some p => [p] | None => [] end)).
      destruct (decide (j < length S)%nat) as [H|H].
      - rewrite lookup_seq_lt by done. destruct (lookup_lt_is_Some_2 S j H) as [y Ey]. rewrite Ey. cbn. f_equal. by apply ROW.
      - rewrite lookup_seq_ge, (lookup_ge_None_2 S) by lia. done. }
    clear. induction S as [|y S' IH]; [done|]. cbn. unfold posIn at 1. destruct (list_find (fun x => x = y) R) as [[i x]|]; cbn; [by f_equiv|done].
  Qed.
End Entries.

(** ** Results *)

Lemma elem_remove_dups_app (R S : list N) x : x ∈ R \/ x ∈ S -> x ∈ remove_dups (R ++ S).
Proof. intros H. apply elem_of_remove_dups, elem_of_app. done. Qed.

Lemma found_shape P rd R S old : paramsOk P R -> paramsOk P S -> randOk P rd -> exists binsR masksR js row res chans,
  rr17aRun P rd R S old = Done res /\ runFacts P rd R S old binsR masksR js row res /\ concat (map chans (seq 0 (pT P))) ≡ₚ concat (map row js) /\
  resR res = inputsAfter P R /\ resS res = inputsAfter P S /\
  exists new, resOut res = old ++ new /\ new = concat (map (fun t => omap (findMask P (recvTable (recvEntries P (map (nco P) R) masksR binsR t))) (chans t)) (rOut rd)).
Proof.
  intros HR HS HD. destruct (run_facts P rd R S old HR HS HD) as (binsR & masksR & js & row & res & E & RF). pose proof (rfRes _ _ _ _ _ _ _ _ _ _ RF) as (chans & HC & ->).
  exists binsR, masksR, js, row. eexists. exists chans. split; [exact E|]. split; [exact RF|]. split; [done|]. split; [done|]. split; [done|]. eexists. split; reflexivity.
Qed.

Lemma run_sub P rd R S old : paramsOk P R -> paramsOk P S -> randOk P rd -> NoDup R -> collisionFree P (remove_dups (R ++ S)) ->
  exists new inR inS, rr17aRun P rd R S old = Done (mkResult (old ++ new) inR inS) /\ new ⊆+ commonPositions R S.
Proof.
  intros HR HS HD ND CF. destruct (found_shape P rd R S old HR HS HD) as (binsR & masksR & js & row & [out inR inS] & chans & E & RF & HC & _ & _ & new & En & ->).
  cbn [resOut] in En. subst out. eexists _, inR, inS. split; [exact E|].
  assert (forall x, x ∈ R -> x ∈ remove_dups (R ++ S)) as HUR by (intros x Hx; apply elem_remove_dups_app; by left).
  assert (forall x, x ∈ S -> x ∈ remove_dups (R ++ S)) as HUS by (intros x Hx; apply elem_remove_dups_app; by right).
  rewrite <- (find_all P rd R S old binsR masksR js row _ HR RF _ HS CF ND HUR HUS). rewrite <- (omap_perm _ _ _ HC), omap_concat, map_map.
  destruct HD as (_ & _ & _ & _ & _ & D6). rewrite (Permutation_concat_map _ _ _ D6). apply concat_submseteq. intros t Ht. apply elem_of_seq in Ht.
  apply omap_submseteq. intros m y _ H. eapply findMask_sub; [| |exact H].
  - by eapply all_fun.
  - intros e He. unfold allEntries. apply elem_of_concat. eexists. split; [exact He|]. apply (elem_of_list_fmap_1 (recvEntries P (map (nco P) R) masksR binsR)). apply elem_of_seq. lia.
Qed.

Lemma run_exact P rd R S old : pT P = 1%nat -> paramsOk P R -> paramsOk P S -> randOk P rd -> NoDup R -> collisionFree P (remove_dups (R ++ S)) ->
  exists new inR inS, rr17aRun P rd R S old = Done (mkResult (old ++ new) inR inS) /\ new ≡ₚ commonPositions R S.
Proof.
  intros H1 HR HS HD ND CF. destruct (found_shape P rd R S old HR HS HD) as (binsR & masksR & js & row & [out inR inS] & chans & E & RF & HC & _ & _ & new & En & ->).
  cbn [resOut] in En. subst out. eexists _, inR, inS. split; [exact E|].
  assert (forall x, x ∈ R -> x ∈ remove_dups (R ++ S)) as HUR by (intros x Hx; apply elem_remove_dups_app; by left).
  assert (forall x, x ∈ S -> x ∈ remove_dups (R ++ S)) as HUS by (intros x Hx; apply elem_remove_dups_app; by right).
  rewrite <- (find_all P rd R S old binsR masksR js row _ HR RF _ HS CF ND HUR HUS). rewrite <- (omap_perm _ _ _ HC), omap_concat, map_map.
  destruct HD as (_ & _ & _ & _ & _ & D6). rewrite (Permutation_concat_map _ _ _ D6). unfold allEntries. rewrite H1. cbn [seq map concat]. by rewrite !app_nil_r.
Qed.

Lemma run_complete P rd R S old i x : pT P = 1%nat -> paramsOk P R -> paramsOk P S -> randOk P rd -> NoDup R -> collisionFree P R ->
  R !! i = Some x -> x ∈ S -> exists new inR inS, rr17aRun P rd R S old = Done (mkResult (old ++ new) inR inS) /\ N.of_nat i ∈ new.
Proof.
  intros H1 HR HS HD ND CF Ex Hx. destruct (found_shape P rd R S old HR HS HD) as (binsR & masksR & js & row & [out inR inS] & chans & E & RF & HC & _ & _ & new & En & ->).
  cbn [resOut] in En. subst out. eexists _, inR, inS. split; [exact E|]. apply elem_of_list_lookup in Hx as [j Ej].
  destruct (find_common P rd R S old binsR masksR js row _ HR RF R i j x CF ND ltac:(done) Ex Ej) as (l & m & Hm & F1 & _).
  destruct HD as (_ & _ & _ & _ & _ & D6). rewrite (Permutation_concat_map _ _ _ D6). unfold allEntries in F1. rewrite H1 in HC, F1 |- *. cbn [seq map concat] in HC, F1 |- *. rewrite !app_nil_r in HC, F1 |- *.
  apply elem_of_list_omap. exists m. split; [|exact F1]. rewrite HC. apply elem_of_concat. exists (row j). split; [by eapply elem_of_list_lookup_2|].
  apply (elem_of_list_fmap_1 row). rewrite (rfJs _ _ _ _ _ _ _ _ _ _ RF). apply elem_of_seq. destruct HS as (_ & _ & _ & _ & _ & _ & HLS & _). apply lookup_lt_Some in Ej. clear -HLS Ej. lia.
Qed.

Lemma run_inputs P rd R S old res : pHash P = true -> rr17aRun P rd R S old = Done res \/ rr17aRun P rd R S old = Thrown res -> resR res = R /\ resS res = S.
Proof.
  intros HH. unfold rr17aRun. destruct (_ || _); [intros [?|E]; [done|injection E as <-; done]|]. destruct (16 <? pMask P); [intros [?|E]; [done|injection E as <-; done]|].
  destruct (pN P * pCap P =? 0)%nat; [intros []; done|]. destruct (mkBins P R _); [|intros []; done]. destruct (mkBins P S _); [|intros []; done].
  destruct (mapM _ _); [|intros []; done]. destruct (mapM _ _); [|intros []; done]. destruct (placeRows _ _ _); [|intros []; done].
  intros [E|?]; [injection E as <-|done]. cbn [resR resS]. unfold inputsAfter. rewrite HH. done.
Qed.

Lemma key_read maskSize num : 0 < num -> (forall i, i < num -> keyReadEnd maskSize i <= num * maskSize) <-> 8 <= maskSize.
Proof.
  intros Hn. unfold keyReadEnd. split.
  - intros H. specialize (H (num - 1) ltac:(lia)). replace (num * maskSize) with ((num - 1) * maskSize + maskSize) in H by (rewrite <- (N.mul_1_l maskSize) at 2; rewrite <- N.mul_add_distr_r; f_equal; lia). lia.
  - intros H i Hi. transitivity (i * maskSize + 1 * maskSize); [lia|]. rewrite <- N.mul_add_distr_r. apply N.mul_le_mono_r. lia.
Qed.

Lemma placesOf_base cap nb T t k pl : placesOf cap nb T t !! k = Some pl -> pl.2 = (k * cap)%nat.
Proof. unfold placesOf. rewrite list_lookup_imap. destruct (_ !! k); [|done]. intros E. by injection E as <-. Qed.

Lemma parts_nodup cap bins pls parts : Forall2 (partOk cap bins) pls parts -> (forall k pl, pls !! k = Some pl -> pl.2 = (k * cap)%nat) ->
  NoDup (concat parts).*2.
Proof.
  intros F HB. assert (forall a, (forall k pl, pls !! k = Some pl -> pl.2 = ((a + k) * cap)%nat) -> NoDup (concat parts).*2 /\ forall s, s ∈ (concat parts).*2 -> (a * cap <= s)%nat) as G.
  { clear HB. induction F as [|pl part pls parts (bin & E & Hp & ND & L) F IH]; intros a HB.
    - split; [constructor|]. intros s Hs. by apply elem_of_nil in Hs.
    - cbn [concat]. rewrite fmap_app. destruct (IH (S a)) as [ND' L'].
      { intros k pl' Hk. rewrite (HB (S k) pl' Hk). f_equal. lia. }
      pose proof (HB 0%nat pl eq_refl) as E0. rewrite Nat.add_0_r in E0. split.
      + apply NoDup_app. split; [done|]. split; [|done]. intros s Hs Hs'. apply L in Hs. apply L' in Hs'. lia.
      + intros s Hs. apply elem_of_app in Hs as [Hs|Hs]; [apply L in Hs; lia|]. apply L' in Hs. lia. }
  by apply (G 0%nat).
Qed.

Lemma ot_slots P items ord draw shuf t : paramsOk P items -> ord ≡ₚ seq 0 (pN P) -> (forall b, shuf b ≡ₚ seq 0 (pCap P)) -> (t < pT P)%nat ->
  exists bins, mkBins P items ord = Some bins /\
    forall a, recvAssign (pCap P) draw bins (placesOf (pCap P) (pNb P) (pT P) t) (seq 0 (pCap P)) = Some a \/
              sendAssign shuf bins (placesOf (pCap P) (pNb P) (pT P) t) = Some a ->
      NoDup a.*2 /\ NoDup a.*1 /\
      (forall i, i ∈ a.*1 <-> exists x, items !! i = Some x /\ exists base, (t, itemBin P x, base) ∈ placesOf (pCap P) (pNb P) (pT P) t) /\
      (forall i s, (i, s) ∈ a -> exists x base, items !! i = Some x /\ (t, itemBin P x, base) ∈ placesOf (pCap P) (pNb P) (pT P) t /\ (base <= s < base + pCap P)%nat).
Proof.
  intros HP HO HS Ht. pose proof HP as (Hn & Hnb & Hcap & HT & HM & Hw & HL & HC). destruct (mkBins_ok P items ord HP HO) as (bins & E & OB). exists bins. split; [done|].
  assert (forall t' b base, (t', b, base) ∈ placesOf (pCap P) (pNb P) (pT P) t -> t' = t /\ (b < pNb P)%nat) as BN.
  { intros t' b base Hpl. pose proof (placesOf_fst _ _ _ _ _ Hpl) as E0. cbn in E0. subst t'. split; [done|]. assert (b ∈ seq 0 (pNb P)) as Hb; [|apply elem_of_seq in Hb; lia].
    rewrite <- (places_bins (pCap P) (pNb P) (pT P) HT Hw). apply elem_of_list_fmap. exists (t, b, base). split; [done|]. unfold places. apply elem_of_concat. eexists. split; [exact Hpl|].
    apply elem_of_list_fmap. exists t. split; [done|]. apply elem_of_seq. lia. }
  assert (forall t' b base, (t', b, base) ∈ placesOf (pCap P) (pNb P) (pT P) t -> exists bin, bins !! b = Some bin /\ (length bin <= pCap P)%nat) as BIN.
  { intros t' b base Hpl. destruct (BN _ _ _ Hpl) as [-> Hb]. destruct (binsOk_elem P items bins b 0 OB Hb) as (bin & Eb & _). exists bin. split; [done|]. by eapply binsOk_length. }
  intros a Ha. assert (exists parts, a = concat parts /\ Forall2 (partOk (pCap P) bins) (placesOf (pCap P) (pNb P) (pT P) t) parts) as (parts & -> & F).
  { destruct Ha as [Ha|Ha].
    - destruct (recvAssign_ok (pCap P) draw bins _ (seq 0 (pCap P)) ltac:(done) BIN) as (parts & E' & F). rewrite Ha in E'. injection E' as ->. eauto.
    - destruct (sendAssign_ok (pCap P) shuf bins _ HS BIN) as (parts & E' & F). rewrite Ha in E'. injection E' as ->. eauto. }
  clear Ha.
  assert (forall i s, (i, s) ∈ concat parts -> exists x base, items !! i = Some x /\ (t, itemBin P x, base) ∈ placesOf (pCap P) (pNb P) (pT P) t /\ (base <= s < base + pCap P)%nat) as RNG.
  { intros i s Hi. apply elem_of_concat in Hi as (part & Hi & Hpart). apply elem_of_list_lookup in Hpart as [k Hk]. destruct (Forall2_lookup_r _ _ _ _ _ F Hk) as ([[t' b] base] & Epl & bin & Eb & Hfst & _ & L).
    cbn [fst snd] in *. apply elem_of_list_lookup_2 in Epl. destruct (BN _ _ _ Epl) as [-> Hb]. destruct (binsOk_elem P items bins b i OB Hb) as (bin' & Eb' & _ & HI). rewrite Eb in Eb'. injection Eb' as <-.
    assert (i ∈ bin) as Hbin by (rewrite <- Hfst; by apply (elem_of_list_fmap_1 fst) in Hi). apply HI in Hbin as (x & Ex & Hx). exists x, base. split; [done|]. rewrite Hx. split; [done|].
    apply L. by apply (elem_of_list_fmap_1 snd) in Hi. }
  split; [|split; [|split; [|exact RNG]]].
  - apply (parts_nodup _ _ _ _ F). intros k pl Hk. by apply (placesOf_base _ _ _ _ _ _ Hk).
  - rewrite (Forall2_parts_fst _ _ _ _ F). pose proof (binsOk_all P items bins (places (pCap P) (pNb P) (pT P)) Hnb OB ltac:(by rewrite places_bins)) as ALL.
    assert (NoDup (concat (map (fun pl : nat * nat * nat => default [] (bins !! pl.1.2)) (places (pCap P) (pNb P) (pT P))))) as ND by (rewrite ALL; apply NoDup_seq).
    unfold places in ND. rewrite <- concat_map_map in ND.
    rewrite map_map in ND. assert (forall (ls : list nat) (h : nat -> list (list nat)), NoDup (concat (concat (map h ls))) -> forall t, t ∈ ls -> NoDup (concat (h t))) as G.
    { induction ls as [|c ls IH]; intros h H t' Ht'; [by apply elem_of_nil in Ht'|]. cbn in H. rewrite concat_app in H. apply NoDup_app in H as (N1 & _ & N2).
      apply elem_of_cons in Ht' as [->|Ht']; [done|]. by apply IH. }
    apply (G _ _ ND t). apply elem_of_seq. lia.
  - intros i. split.
    + intros Hi. apply elem_of_list_fmap in Hi as ([i' s] & -> & Hi). destruct (RNG _ _ Hi) as (x & base & Ex & Hpl & _). eauto.
    + intros (x & Ex & base & Hpl). rewrite (Forall2_parts_fst _ _ _ _ F). apply elem_of_concat. eexists. split; [|apply (elem_of_list_fmap_1 _ _ _ Hpl)]. cbn [fst snd].
      destruct (binsOk_elem P items bins (itemBin P x) i OB (itemBin_lt P x Hnb)) as (bin & Eb & _ & HI). rewrite Eb. apply HI. eauto.
Qed.
