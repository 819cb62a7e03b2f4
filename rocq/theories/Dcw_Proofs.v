(** Proofs about the Bloom-filter protocol. *)
From Verif Require Import Base Tools_Spec Partition_Model Partition_Proofs Dcw_Model Dcw_Spec.

Local Arguments bfBits : simpl never.
Local Arguments positions : simpl never.
Local Arguments maskKey : simpl never.

(** ** OT extension *)

(** On the positions [P], what the receiver holds is what the choice selects of what the sender holds. *)
Definition consistentOn (P : nat -> Prop) (choices : list bool) (rm : list N) (sm : list (N * N)) : Prop :=
  length rm = length sm /\ length choices = length sm /\
  forall p b m0 m1 (c : bool), P p -> rm !! p = Some b -> sm !! p = Some (m0, m1) -> choices !! p = Some c -> b = if c then m1 else m0.
Definition consistent := consistentOn (fun _ => True).

Lemma fillRegion_length {A} s (vals arr : list A) : (s + length vals <= length arr)%nat -> length (fillRegion s vals arr) = length arr.
Proof. intros H. unfold fillRegion. rewrite !app_length, take_length, drop_length. lia. Qed.

Lemma fillRegion_lookup {A} s (vals arr : list A) p : (s + length vals <= length arr)%nat ->
  fillRegion s vals arr !! p =
    if decide (s <= p < s + length vals)%nat then vals !! (p - s)%nat else arr !! p.
Proof.
  intros H. unfold fillRegion. case_decide as D.
  - rewrite lookup_app_r by (rewrite take_length; lia). rewrite take_length, lookup_app_l by lia. f_equal. lia.
  - destruct (decide (p < s)%nat).
    + rewrite lookup_app_l by (rewrite take_length; lia). by rewrite lookup_take.
    + rewrite lookup_app_r by (rewrite take_length; lia). rewrite take_length, lookup_app_r by lia.
      rewrite lookup_drop. f_equal. lia.
Qed.

Lemma otSplit_bound m T t : (otSplit m T t).1 <= m /\ (otSplit m T t).2 <= m.
Proof. unfold otSplit. cbn [fst snd]. lia. Qed.

Definition region (m T : nat) (t p : nat) : Prop :=
  N.of_nat p >= (otSplit (N.of_nat m) (N.of_nat T) (N.of_nat t)).1 /\ N.of_nat p < (otSplit (N.of_nat m) (N.of_nat T) (N.of_nat t)).2.

Lemma routine_consistent P ot choices T t rm sm rm' sm' : consistentOn P choices rm sm ->
  recvRoutine ot choices T t rm = Some rm' -> sendRoutine ot T t sm = Some sm' ->
  consistentOn (fun p => P p \/ region (length sm) T t p) choices rm' sm' /\ length sm' = length sm.
Proof.
  intros (L1 & L2 & C) E1 E2. unfold recvRoutine in E1. unfold sendRoutine in E2. rewrite L1 in E1. unfold region.
  destruct (otSplit_bound (N.of_nat (length sm)) (N.of_nat T) (N.of_nat t)) as [B1 B2].
  destruct (otSplit _ _ _) as [s e]. cbn [fst snd] in *.
  destruct (s <=? e) eqn:SE; [|done]. apply N.leb_le in SE.
  injection E1 as <-. injection E2 as <-.
  set (vr := imap _ _). set (vs := map _ _).
  assert (length vr = (N.to_nat e - N.to_nat s)%nat) as Lr.
  { unfold vr. rewrite imap_length, take_length, drop_length. lia. }
  assert (length vs = (N.to_nat e - N.to_nat s)%nat) as Ls by (unfold vs; by rewrite map_length, seq_length).
  assert (length (fillRegion (N.to_nat s) vs sm) = length sm) as Lf by (apply fillRegion_length; lia).
  split; [|done]. split; [|split].
  - rewrite !fillRegion_length; lia.
  - lia.
  - intros p b m0 m1 c HP. rewrite !fillRegion_lookup by lia. rewrite Lr, Ls. case_decide as D.
    2:{ apply C. destruct HP as [HP|[HP1 HP2]]; [done|lia]. }
    unfold vr, vs. rewrite list_lookup_imap, lookup_take, lookup_drop by lia.
    replace (N.to_nat s + (p - N.to_nat s))%nat with p by lia. intros Hb Hm Hc. rewrite Hc in Hb. cbn in Hb.
    rewrite (list_lookup_fmap (fun j => (ot t j false, ot t j true))), lookup_seq_lt in Hm by lia. cbn in Hm.
    injection Hb as <-. injection Hm as <- <-. by destruct c.
Qed.

Lemma forThreads_consistent P ot choices T ts rm sm rm' sm' : consistentOn P choices rm sm ->
  forThreads (recvRoutine ot choices T) ts rm = Some rm' -> forThreads (sendRoutine ot T) ts sm = Some sm' ->
  consistentOn (fun p => P p \/ exists t, t ∈ ts /\ region (length sm) T t p) choices rm' sm' /\ length sm' = length sm.
Proof.
  revert P rm sm. induction ts as [|t ts IH]; intros P rm sm C E1 E2; cbn [forThreads] in *.
  - injection E1 as <-; injection E2 as <-. split; [|done]. destruct C as (L1 & L2 & C). split; [done|]. split; [done|].
    intros p b m0 m1 c [HP|(t & Ht & _)]; [by apply C|by apply elem_of_nil in Ht].
  - destruct (recvRoutine _ _ _ _ _) as [rm1|] eqn:F1; [|done]. destruct (sendRoutine _ _ _ _) as [sm1|] eqn:F2; [|done].
    destruct (routine_consistent _ _ _ _ _ _ _ _ _ C F1 F2) as [C1 L1]. destruct (IH _ _ _ C1 E1 E2) as [(M1 & M2 & C2) L2].
    rewrite L1 in *. split; [|done]. split; [done|]. split; [done|].
    intros p b m0 m1 c HP. apply C2. destruct HP as [HP|(t' & Ht' & Hr)]; [by left; left|].
    apply elem_of_cons in Ht' as [->|Ht']; [by left; right|right; eauto].
Qed.

Lemma region_cover m T p : (0 < T)%nat -> N.of_nat m * N.of_nat T < 2 ^ 64 -> (p < m)%nat -> exists t, t ∈ seq 0 T /\ region m T t p.
Proof.
  intros HT Hw Hp. pose proof (ot_cover (N.of_nat m) (N.of_nat T) ltac:(lia) Hw) as E. rewrite Nat2N.id in E.
  assert (p ∈ ranges (otSplit (N.of_nat m) (N.of_nat T)) (N.of_nat T)) as H by (rewrite E; apply elem_of_seq; lia).
  unfold ranges in H. rewrite Nat2N.id in H. apply elem_of_concat in H as (l & Hl & H).
  apply elem_of_list_fmap in H as (t & -> & Ht). exists t. split; [done|].
  unfold Tools_Spec.positions in Hl. apply elem_of_seq in Hl. unfold region. lia.
Qed.

Lemma otSplit_le m T t : 0 < T -> t < T -> m * T < 2 ^ 64 -> (otSplit m T t).1 <= (otSplit m T t).2.
Proof.
  intros HT Ht Hw. unfold otSplit, two64. cbn [fst snd]. rewrite !N.mod_small by nia.
  apply N.min_le_compat_r, roundUp_mono, N.div_le_mono; nia.
Qed.

Lemma forThreads_Some {A} (f : nat -> A -> option A) (I : A -> Prop) ts a : I a ->
  (forall t a, t ∈ ts -> I a -> exists a', f t a = Some a' /\ I a') -> exists a', forThreads f ts a = Some a' /\ I a'.
Proof.
  revert a. induction ts as [|t ts IH]; intros a Ha F; cbn; [by exists a|].
  destruct (F t a) as (a1 & -> & I1); [left|done|]. apply IH; [done|]. intros t' a' Ht'. apply F. by right.
Qed.

(** The regions are valid when the products do not wrap. *)
Lemma inits_run ot n T choices rs ss ms ts o1 o2 : N.of_nat (bfBits n) * N.of_nat T < 2 ^ 64 -> length choices = bfBits n ->
  exists r s, recvInit ot n T rs ts choices o1 = Some r /\ sendInit ot n T ms ss o2 = Some s.
Proof.
  intros Hw Hc. unfold recvInit, sendInit.
  destruct (forThreads_Some (recvRoutine ot choices T) (fun a => length a = bfBits n) (seq 0 T) (resize (bfBits n) 0 (drMsgs o1)))
    as (a1 & -> & _).
  { apply resize_length. }
  { intros t a Ht La. apply elem_of_seq in Ht. unfold recvRoutine. rewrite La.
    pose proof (otSplit_le (N.of_nat (bfBits n)) (N.of_nat T) (N.of_nat t) ltac:(lia) ltac:(lia) Hw) as Hle.
    destruct (otSplit_bound (N.of_nat (bfBits n)) (N.of_nat T) (N.of_nat t)) as [B1 B2].
    destruct (otSplit _ _ _) as [s e]. cbn [fst snd] in *. rewrite (proj2 (N.leb_le s e) Hle). eexists. split; [done|].
    rewrite fillRegion_length; [done|]. rewrite imap_length, take_length, drop_length. lia. }
  destruct (forThreads_Some (sendRoutine ot T) (fun a => length a = bfBits n) (seq 0 T) (resize (bfBits n) (0, 0) (dsMsgs o2)))
    as (a2 & -> & _).
  { apply resize_length. }
  { intros t a Ht La. apply elem_of_seq in Ht. unfold sendRoutine. rewrite La.
    pose proof (otSplit_le (N.of_nat (bfBits n)) (N.of_nat T) (N.of_nat t) ltac:(lia) ltac:(lia) Hw) as Hle.
    destruct (otSplit_bound (N.of_nat (bfBits n)) (N.of_nat T) (N.of_nat t)) as [B1 B2].
    destruct (otSplit _ _ _) as [s e]. cbn [fst snd] in *. rewrite (proj2 (N.leb_le s e) Hle). eexists. split; [done|].
    rewrite fillRegion_length; [done|]. rewrite map_length, seq_length. lia. }
  eauto.
Qed.

(** ** The online phase *)

Lemma positions_lt aes prng seed m x p : (0 < m)%nat -> p ∈ positions aes prng seed m x -> (p < m)%nat.
Proof.
  intros Hm Hp. unfold positions in Hp. apply elem_of_concat in Hp as (l & Hl & Hp).
  apply elem_of_list_fmap in Hp as (j & -> & _). cbv zeta in Hl.
  repeat (apply elem_of_cons in Hl as [->|Hl]); [| |by apply elem_of_nil in Hl];
    match goal with |- (N.to_nat (?a mod N.of_nat m) < m)%nat => pose proof (N.mod_lt a (N.of_nat m) ltac:(lia)); lia end.
Qed.

Definition setAll (ps : list nat) (bf : list bool) : list bool := foldl (fun b p => <[p := true]> b) bf ps.

Lemma setAll_length ps bf : length (setAll ps bf) = length bf.
Proof. revert bf. induction ps as [|p ps IH]; intros bf; cbn; [done|]. change (foldl _ _ ps) with (setAll ps (<[p:=true]> bf)). by rewrite IH, insert_length. Qed.
Lemma setAll_keep ps bf p : bf !! p = Some true -> setAll ps bf !! p = Some true.
Proof.
  revert bf. induction ps as [|q ps IH]; intros bf H; cbn; [done|]. apply IH.
  destruct (decide (p = q)) as [->|D]; [|by rewrite list_lookup_insert_ne by done].
  apply list_lookup_insert. by apply lookup_lt_Some in H.
Qed.
Lemma setAll_in ps bf p : p ∈ ps -> (p < length bf)%nat -> setAll ps bf !! p = Some true.
Proof.
  revert bf. induction ps as [|q ps IH]; intros bf Hp L; [by apply elem_of_nil in Hp|]. cbn.
  apply elem_of_cons in Hp as [->|Hp].
  - apply setAll_keep. by apply list_lookup_insert.
  - apply IH; [done|by rewrite insert_length].
Qed.

Lemma encodeItem_eq msgs ps bf enc : (forall p, p ∈ ps -> (p < length bf)%nat) -> length msgs = length bf ->
  encodeItem msgs ps bf enc = Some (setAll ps bf, N.lxor enc (xorAt msgs ps)).
Proof.
  revert bf enc. induction ps as [|p ps IH]; intros bf enc B L; cbn [encodeItem].
  - cbn. by rewrite N.lxor_0_r.
  - assert (p < length bf)%nat as Hp by (apply B; left).
    destruct (lookup_lt_is_Some_2 msgs p ltac:(lia)) as [b Eb]. rewrite Eb.
    rewrite (proj2 (Nat.ltb_lt p (length bf)) Hp). rewrite IH; rewrite ?insert_length; [|intros q Hq; apply B; by right|done].
    cbn [xorAt foldr setAll foldl]. rewrite Eb. change (default 0 (Some b)) with b.
    f_equal. f_equal. by rewrite N.lxor_assoc.
Qed.

Section Online.
Variable (aes : N -> N -> N) (prng : N -> nat -> N).

Definition encOf (seed : N) (m : nat) (msgs : list N) (x : N) : N := xorAt msgs (positions aes prng seed m x).

Lemma encodeAll_spec seed msgs m inputs bf masks :
  (0 < m)%nat -> length msgs = m -> length bf = m ->
  let encs := map (encOf seed m msgs) inputs in
  let keys := map maskKey encs in
  0 ∉ keys -> NoDup (map maskKey masks) ->
  if bool_decide (NoDup (map maskKey masks ++ keys)) then
    encodeAll aes prng seed msgs inputs (length masks) bf (rev (imap (fun j e => (maskKey e, j)) masks)) masks =
    Done (setAll (concat (map (positions aes prng seed m) inputs)) bf, rev (imap (fun j e => (maskKey e, j)) (masks ++ encs)), masks ++ encs)
  else exists s, encodeAll aes prng seed msgs inputs (length masks) bf (rev (imap (fun j e => (maskKey e, j)) masks)) masks = Thrown s.
Proof.
  intros Hm Lm. revert bf masks. induction inputs as [|x inputs IH]; intros bf masks Lb encs keys Z ND.
  - cbn in encs, keys. unfold keys, encs. rewrite app_nil_r, bool_decide_eq_true_2 by done. cbn. by rewrite app_nil_r.
  - cbn [encodeAll]. rewrite Lb.
    assert (forall p, p ∈ positions aes prng seed m x -> (p < length bf)%nat) as HB.
    { intros p Hp. rewrite Lb. by eapply positions_lt. }
    rewrite (encodeItem_eq msgs _ bf 0 HB) by congruence. rewrite N.lxor_0_l.
    change (xorAt msgs (positions aes prng seed m x)) with (encOf seed m msgs x).
    unfold keys, encs in *. cbn [map] in Z |- *. set (e := encOf seed m msgs x) in *.
    apply not_elem_of_cons in Z as [Z1 Z2].
    rewrite (proj2 (N.eqb_neq (maskKey e) 0)) by done.
    assert ((rev (imap (fun j e => (maskKey e, j)) masks)).*1 ≡ₚ map maskKey masks) as PK.
    { rewrite <- Permutation_rev. rewrite fmap_imap.
      match goal with |- ?a ≡ₚ ?b => assert (a = b) as ->; [|done] end.
      apply list_eq. intros j. rewrite list_lookup_imap, (list_lookup_fmap maskKey). by destruct (masks !! j). }
    case_bool_decide as D.
    + rewrite bool_decide_eq_false_2.
      2:{ intros H. rewrite PK in H. apply NoDup_app in D as (_ & D & _). apply (D _ H). left. }
      specialize (IH (setAll (positions aes prng seed m x) bf) (masks ++ [e])).
      rewrite setAll_length in IH. specialize (IH Lb). cbv zeta in IH. specialize (IH Z2).
      rewrite map_app in IH. cbn [map] in IH. rewrite <- (app_assoc (map maskKey masks)) in IH. cbn [app] in IH.
      rewrite bool_decide_eq_true_2 in IH by done.
      rewrite app_length in IH. cbn [length] in IH. rewrite Nat.add_1_r in IH.
      rewrite (imap_app _ masks [e]) in IH. cbn [imap] in IH. rewrite rev_app_distr in IH. cbn [rev app compose] in IH.
      rewrite Nat.add_0_r in IH. rewrite IH.
      * rewrite <- !app_assoc. cbn [app concat]. unfold setAll. by rewrite foldl_app.
      * apply (NoDup_app (map maskKey masks ++ [maskKey e]) (map maskKey (map (encOf seed m msgs) inputs))).
        by rewrite <- app_assoc.
    + case_bool_decide as D2; [by eexists|].
      specialize (IH (setAll (positions aes prng seed m x) bf) (masks ++ [e])).
      rewrite setAll_length in IH. specialize (IH Lb). cbv zeta in IH. specialize (IH Z2).
      rewrite map_app in IH. cbn [map] in IH. rewrite <- (app_assoc (map maskKey masks)) in IH. cbn [app] in IH.
      rewrite bool_decide_eq_false_2 in IH by done.
      rewrite app_length in IH. cbn [length] in IH. rewrite Nat.add_1_r in IH.
      rewrite (imap_app _ masks [e]) in IH. cbn [imap] in IH. rewrite rev_app_distr in IH. cbn [rev app compose] in IH.
      rewrite Nat.add_0_r in IH. apply IH.
      apply NoDup_app. split; [done|]. split; [|by apply NoDup_singleton].
      intros k Hk Hk2. apply elem_of_list_singleton in Hk2 as ->. apply D2. by rewrite PK.
Qed.

(** A run that gives an answer had distinct nonzero keys. *)
Lemma encodeAll_Done seed msgs m inputs i bf mp masks r :
  (0 < m)%nat -> length msgs = m -> length bf = m -> NoDup mp.*1 ->
  encodeAll aes prng seed msgs inputs i bf mp masks = Done r ->
  0 ∉ map maskKey (map (encOf seed m msgs) inputs).
Proof.
  intros Hm Lm. revert i bf mp masks. induction inputs as [|x inputs IH]; intros i bf mp masks Lb ND E; cbn [encodeAll map] in *; [apply not_elem_of_nil|].
  rewrite Lb in E.
  rewrite (encodeItem_eq msgs _ bf 0) in E; [|intros p Hp; rewrite Lb; by eapply positions_lt|congruence]. rewrite N.lxor_0_l in E.
  change (xorAt msgs (positions aes prng seed m x)) with (encOf seed m msgs x) in E.
  destruct (maskKey (encOf seed m msgs x) =? 0) eqn:K; [done|]. apply N.eqb_neq in K.
  case_bool_decide as D; [done|]. apply not_elem_of_cons. split; [done|].
  eapply IH; [| |exact E]; [by rewrite setAll_length|]. rewrite fmap_cons. by apply NoDup_cons.
Qed.

Lemma list_find_imap_rev (masks : list N) (k : N) : NoDup (map maskKey masks) ->
  match list_find (fun e => e.1 = k) (rev (imap (fun j e => (maskKey e, j)) masks)) with
  | Some (_, (_, i)) => exists e, masks !! i = Some e /\ maskKey e = k
  | None => forall e, e ∈ masks -> maskKey e <> k
  end.
Proof.
  intros ND. destruct (list_find _ _) as [[j [k' i]]|] eqn:E.
  - apply list_find_Some in E as (E & Hk & _). cbn in Hk. subst k'. apply elem_of_list_lookup_2 in E.
    rewrite <- Permutation_rev in E. apply elem_of_lookup_imap_1 in E as (j' & e & [= -> ->] & He). eauto.
  - apply list_find_None in E. intros e He Hk. rewrite Forall_forall in E.
    apply elem_of_list_lookup in He as [i Hi]. apply (E (maskKey e, i)); [|done].
    rewrite <- Permutation_rev. by apply elem_of_lookup_imap_2 with (f := fun j e => (maskKey e, j)).
Qed.

Lemma NoDup_map_lookup {A B} (f : A -> B) (l : list A) i j x y : NoDup (map f l) -> l !! i = Some x -> l !! j = Some y -> f x = f y -> i = j.
Proof.
  intros ND Hi Hj E. eapply (NoDup_lookup (map f l)); [done| |].
  - rewrite (list_lookup_fmap f), Hi. done.
  - rewrite (list_lookup_fmap f), Hj. cbn. by rewrite E.
Qed.

(** Every mask is looked up among the receiver's encodings. *)
Lemma matchMasks_eq masks theirs out : NoDup (map maskKey masks) -> 0 ∉ map maskKey masks ->
  matchMasks (rev (imap (fun j e => (maskKey e, j)) masks)) masks theirs out =
  Some (out ++ commonPositions masks theirs).
Proof.
  intros ND Z. revert out. induction theirs as [|m theirs IH]; intros out; cbn [matchMasks]; [cbn; by rewrite app_nil_r|].
  unfold commonPositions. cbn [omap list_omap]. fold (commonPositions masks theirs).
  pose proof (list_find_imap_rev masks (maskKey m) ND) as F.
  assert (forall i e, masks !! i = Some e -> e = m -> list_find (fun x => x = m) masks = Some (i, m)) as FM.
  { intros i e Hi ->. apply list_find_Some. split; [done|]. split; [done|]. intros j y Hj Hlt ->.
    pose proof (NoDup_map_lookup maskKey masks i j m m ND Hi Hj eq_refl). lia. }
  destruct (maskKey m =? 0) eqn:K.
  - apply N.eqb_eq in K. rewrite IH. destruct (list_find (fun x => x = m) masks) as [[i e]|] eqn:E; [|done].
    apply list_find_Some in E as (E & -> & _). exfalso. apply Z. rewrite <- K.
    apply (elem_of_list_fmap_1 maskKey). by apply elem_of_list_lookup_2 in E.
  - destruct (list_find _ (rev _)) as [[j [k i]]|].
    + destruct F as (e & Hi & He). rewrite Hi. destruct (e =? m) eqn:Em.
      * apply N.eqb_eq in Em. rewrite (FM i e Hi Em), IH. rewrite <- app_assoc. done.
      * apply N.eqb_neq in Em. rewrite IH. destruct (list_find (fun x => x = m) masks) as [[i' e']|] eqn:E; [|done].
        apply list_find_Some in E as (E & -> & _). exfalso.
        pose proof (NoDup_map_lookup maskKey masks i i' e m ND Hi E He) as ->. congruence.
    + rewrite IH. destruct (list_find (fun x => x = m) masks) as [[i e]|] eqn:E; [|done].
      apply list_find_Some in E as (E & -> & _). exfalso. apply (F m); [by apply elem_of_list_lookup_2 in E|done].
Qed.

Lemma maskItem_eq msgs corr ps mask : (forall p, p ∈ ps -> (p < length msgs)%nat) -> length corr = length msgs ->
  maskItem msgs corr ps mask =
  Some (N.lxor mask (xorAt (zip_with (fun m (c : bool) => if c then m.1 else m.2) msgs corr) ps)).
Proof.
  intros B L. revert mask. induction ps as [|p ps IH]; intros mask; cbn [maskItem]; [cbn; by rewrite N.lxor_0_r|].
  assert (p < length msgs)%nat as Hp by (apply B; left).
  destruct (lookup_lt_is_Some_2 msgs p ltac:(lia)) as [[m0 m1] Em]. destruct (lookup_lt_is_Some_2 corr p ltac:(lia)) as [c Ec].
  rewrite Em, Ec, IH by (intros q Hq; apply B; by right). cbn [xorAt foldr].
  rewrite lookup_zip_with, Em, Ec. cbn. rewrite N.lxor_assoc. done.
Qed.

Lemma xorAt_ext m1 m2 ps : (forall p, p ∈ ps -> m1 !! p = m2 !! p) -> xorAt m1 ps = xorAt m2 ps.
Proof.
  induction ps as [|p ps IH]; intros E; cbn; [done|]. rewrite (E p) by left. f_equal. apply IH. intros q Hq. apply E. by right.
Qed.

Lemma mapM_total {A B} (f : A -> option B) (g : A -> B) l : (forall x, x ∈ l -> f x = Some (g x)) -> mapM f l = Some (map g l).
Proof.
  induction l as [|x l IH]; intros E; cbn; [done|]. rewrite (E x) by left. cbn. rewrite IH; [done|]. intros y Hy. apply E. by right.
Qed.

(** The whole run, for parties with consistent OT messages. *)
Section Run.
Variable (r : dcwReceiver) (s : dcwSender) (R S : list N) (n : nat).
Hypothesis (Hn : drN r = n) (Hn2 : dsN s = n) (Hseed : dsSeed s = drSeed r).
Hypothesis (HR : length R = n) (HS : length S = n).
Hypothesis (HC : consistent (drChoices r) (drMsgs r) (dsMsgs s)) (HL : length (drMsgs r) = bfBits n).

Let enc := encOf (drSeed r) (bfBits n) (drMsgs r).
Let encs := map enc R.

Lemma run_zero : 0 ∈ map maskKey encs -> forall x, dcwRun aes prng r s R S <> Done x.
Proof using Hn Hn2 Hseed HR HS HC HL.
  intros Z x E. unfold dcwRun, recvFirst in E. rewrite Hn, HR, Nat.eqb_refl in E. cbn [negb] in E.
  destruct (encodeAll _ _ _ _ _ _ _ _ _) eqn:E1; try discriminate.
  assert (0 < n)%nat. { destruct R; cbn in *; [by apply elem_of_nil in Z|]. lia. }
  apply encodeAll_Done with (m := bfBits n) in E1; [by apply E1|unfold bfBits; lia|done|by rewrite replicate_length|apply NoDup_nil_2].
Qed.

Lemma run_dup : 0 ∉ map maskKey encs -> ~ NoDup (map maskKey encs) -> dcwRun aes prng r s R S = Thrown (drIntersection r).
Proof using Hn Hn2 Hseed HR HS HC HL.
  intros Z ND. unfold dcwRun, recvFirst. rewrite Hn, HR, Nat.eqb_refl. cbn [negb].
  assert (0 < n)%nat. { destruct R; cbn in *; [|lia]. exfalso. apply ND. constructor. }
  pose proof (encodeAll_spec (drSeed r) (drMsgs r) (bfBits n) R (replicate (bfBits n) false) [] ltac:(unfold bfBits; lia) HL (replicate_length _ _)) as E.
  cbv zeta in E. specialize (E Z (NoDup_nil_2)). cbn [map app] in E. rewrite bool_decide_eq_false_2 in E by done.
  destruct E as [st E]. cbn [length imap rev] in E. by rewrite E.
Qed.

Lemma run_eq : 0 ∉ map maskKey encs -> NoDup (map maskKey encs) ->
  exists theirs, dcwRun aes prng r s R S = Done (drIntersection r ++ commonPositions encs theirs) /\
    length theirs = length S /\
    (forall j y, S !! j = Some y -> y ∈ R -> theirs !! j = Some (enc y)) /\
    (forall corr map masks, recvFirst aes prng r R = Done (corr, map, masks) -> senderMasks aes prng s S corr = Done theirs).
Proof using Hn Hn2 Hseed HR HS HC HL.
  intros Z ND. destruct (decide (n = 0%nat)) as [N0|N0].
  { unfold encs. destruct R; [|cbn in *; lia]. destruct S; [|cbn in *; lia].
    exists []. unfold dcwRun, recvFirst, senderMasks. rewrite Hn, Hn2, N0. cbn. split; [by rewrite app_nil_r|]. done. }
  pose proof (encodeAll_spec (drSeed r) (drMsgs r) (bfBits n) R (replicate (bfBits n) false) [] ltac:(unfold bfBits; lia) HL (replicate_length _ _)) as E.
  cbv zeta in E. specialize (E Z (NoDup_nil_2)). cbn [map app] in E. fold enc in E. fold encs in E. rewrite bool_decide_eq_true_2 in E by done.
  cbn [length imap rev] in E.
  set (bf := setAll _ _) in E. set (corr := zip_with xorb bf (drChoices r)).
  assert (recvFirst aes prng r R = Done (corr, rev (imap (fun j e => (maskKey e, j)) encs), encs)) as E1.
  { unfold recvFirst. rewrite Hn, HR, Nat.eqb_refl. cbn [negb]. rewrite E. done. }
  destruct HC as (L1 & L2 & C).
  assert (length bf = bfBits n) as Lb by (unfold bf; by rewrite setAll_length, replicate_length).
  assert (length corr = length (dsMsgs s)) as Lc by (unfold corr; rewrite zip_with_length; lia).
  set (sel := zip_with (fun m (c : bool) => if c then m.1 else m.2) (dsMsgs s) corr).
  assert (senderMasks aes prng s S corr = Done (map (fun y => xorAt sel (positions aes prng (drSeed r) (bfBits n) y)) S)) as E2.
  { unfold senderMasks. rewrite Hn2, HS, Nat.eqb_refl. cbn [negb]. rewrite Hseed.
    rewrite (mapM_total _ (fun y => xorAt sel (positions aes prng (drSeed r) (bfBits n) y))); [done|].
    intros y _. rewrite maskItem_eq; [by rewrite N.lxor_0_l| |done].
    intros p Hp. rewrite <- L1, HL. eapply positions_lt; [|exact Hp]. unfold bfBits. lia. }
  exists (map (fun y => xorAt sel (positions aes prng (drSeed r) (bfBits n) y)) S). split; [|split; [|split]].
  4:{ intros c' m' k' E'. rewrite E1 in E'. assert (c' = corr) as -> by congruence. exact E2. }
  - unfold dcwRun. rewrite E1, E2. rewrite map_length, HS, Hn, Nat.eqb_refl. by rewrite matchMasks_eq.
  - by rewrite map_length.
  - intros j y Hj Hy. rewrite (list_lookup_fmap (fun y => xorAt sel (positions aes prng (drSeed r) (bfBits n) y))), Hj. cbn. f_equal.
    unfold enc, encOf. apply xorAt_ext. intros p Hp.
    assert (p < bfBits n)%nat as Hpm by (eapply positions_lt; [|exact Hp]; unfold bfBits; lia).
    assert (bf !! p = Some true) as Hb.
    { apply setAll_in; [|by rewrite replicate_length]. apply elem_of_concat. eexists. split; [exact Hp|].
      by apply (elem_of_list_fmap_1 (positions aes prng (drSeed r) (bfBits n))). }
    destruct (lookup_lt_is_Some_2 (drChoices r) p ltac:(lia)) as [c Ec].
    destruct (lookup_lt_is_Some_2 (dsMsgs s) p ltac:(lia)) as [[m0 m1] Em].
    destruct (lookup_lt_is_Some_2 (drMsgs r) p ltac:(lia)) as [b Eb].
    unfold sel, corr. rewrite !lookup_zip_with, Em, Hb, Ec, Eb. cbn. rewrite (C _ _ _ _ _ I Eb Em Ec). by destruct c.
Qed.
End Run.
End Online.

(** ** Statements *)

Lemma elem_commonPositions (R S : list N) i x : NoDup R -> R !! i = Some x -> x ∈ S -> N.of_nat i ∈ commonPositions R S.
Proof.
  intros ND Hi Hx. unfold commonPositions. apply elem_of_list_omap. exists x. split; [done|].
  assert (list_find (fun y => y = x) R = Some (i, x)) as ->; [|done].
  apply list_find_Some. split; [done|]. split; [done|]. intros j y Hj Hlt ->. pose proof (NoDup_lookup R i j x ND Hi Hj). lia.
Qed.

Lemma init_consistent ot n T rs ts ss ms choices o1 o2 r s :
  (0 < T)%nat -> N.of_nat (bfBits n) * N.of_nat T < 2 ^ 64 -> length choices = bfBits n ->
  recvInit ot n T rs ts choices o1 = Some r -> sendInit ot n T ss ms o2 = Some s ->
  drN r = n /\ dsN s = n /\ drIntersection r = drIntersection o1 /\ drSeed r = N.lxor rs ts /\ dsSeed s = N.lxor ss ms /\
  consistent (drChoices r) (drMsgs r) (dsMsgs s) /\ length (drMsgs r) = bfBits n.
Proof.
  intros HT Hw Lc E1 E2. unfold recvInit in E1. unfold sendInit in E2.
  destruct (forThreads _ _ (resize _ 0 _)) as [rm|] eqn:F1; [|done]. destruct (forThreads _ _ (resize _ (0, 0) _)) as [sm|] eqn:F2; [|done].
  injection E1 as <-. injection E2 as <-. cbn.
  eapply (forThreads_consistent (fun _ => False)) in F1 as [(C1 & C2 & C) L]; [| |exact F2].
  - rewrite resize_length in *. split; [done|]. split; [done|]. split; [done|]. split; [done|]. split; [done|]. split; [|lia].
    split; [done|]. split; [done|]. intros p b m0 m1 c _ Hb. apply C; [|done]. right. apply region_cover; [done..|].
    apply lookup_lt_Some in Hb. lia.
  - split; [by rewrite !resize_length|]. split; [by rewrite resize_length|]. done.
Qed.

Lemma omap_ext_zip {A B C} (f : A -> option C) (g : B -> option C) l k : length l = length k ->
  (forall j x y, l !! j = Some x -> k !! j = Some y -> f x = g y) -> omap f l = omap g k.
Proof.
  revert k. induction l as [|a l IH]; intros [|b k] L H; cbn in *; try done.
  rewrite (H 0%nat a b) by done. rewrite (IH k); [done|lia|]. intros j x y. apply (H (S j)).
Qed.

Lemma commonPositions_enc (enc : N -> N) (R S theirs : list N) :
  NoDup (map enc R) -> length theirs = length S ->
  (forall j y, S !! j = Some y -> y ∈ R -> theirs !! j = Some (enc y)) ->
  (forall x j y, x ∈ R -> S !! j = Some y -> theirs !! j = Some (enc x) -> x = y) ->
  commonPositions (map enc R) theirs = commonPositions R S.
Proof.
  intros ND L H1 H2. unfold commonPositions. apply omap_ext_zip; [done|]. intros j m y Hm Hy.
  destruct (decide (y ∈ R)) as [D|D].
  - rewrite (H1 j y Hy D) in Hm. injection Hm as <-. apply elem_of_list_lookup in D as [i Hi].
    assert (list_find (fun x => x = enc y) (map enc R) = Some (i, enc y)) as ->.
    { apply list_find_Some. split; [by rewrite (list_lookup_fmap enc), Hi|]. split; [done|]. intros k z Hk Hlt ->.
      assert (i = k); [|lia]. eapply (NoDup_lookup (map enc R)); [done| |exact Hk]. by rewrite (list_lookup_fmap enc), Hi. }
    assert (list_find (fun x => x = y) R = Some (i, y)) as ->; [|done].
    apply list_find_Some. split; [done|]. split; [done|]. intros k z Hk Hlt ->.
    assert (i = k); [|lia]. eapply (NoDup_lookup (map enc R)); [done| |]; rewrite (list_lookup_fmap enc), ?Hi, ?Hk; done.
  - assert (list_find (fun x => x = y) R = None) as ->.
    { apply list_find_None, Forall_forall. intros x Hx ->. done. }
    assert (list_find (fun x => x = m) (map enc R) = None) as ->; [|done].
    apply list_find_None, Forall_forall. intros e He ->. apply elem_of_list_fmap in He as (x & -> & Hx).
    rewrite (H2 x j y Hx Hy Hm) in Hx. done.
Qed.

Lemma NoDup_map_inv' {A B} (f : A -> B) l : NoDup (map f l) -> NoDup l.
Proof. apply NoDup_fmap_1. Qed.

Section Final.
Variable (aes : N -> N -> N) (prng : N -> nat -> N) (ot : nat -> nat -> bool -> N).
Variable (n T : nat) (rs ss : N) (choices : list bool) (o1 r : dcwReceiver) (o2 s : dcwSender) (R S : list N).
Hypothesis (HT : (0 < T)%nat) (Hw : N.of_nat (bfBits n) * N.of_nat T < 2 ^ 64) (Lc : length choices = bfBits n).
Hypothesis (Er : recvInit ot n T rs ss choices o1 = Some r) (Es : sendInit ot n T ss rs o2 = Some s).
Hypothesis (HR : length R = n) (HS : length S = n).

Let keys := map (fun x => maskKey (dcwEnc aes prng r x)) R.

Lemma final_setup : drN r = n /\ dsN s = n /\ drIntersection r = drIntersection o1 /\ dsSeed s = drSeed r /\
  consistent (drChoices r) (drMsgs r) (dsMsgs s) /\ length (drMsgs r) = bfBits n /\
  keys = map maskKey (map (encOf aes prng (drSeed r) (bfBits n) (drMsgs r)) R).
Proof using HT Hw Lc Er Es.
  destruct (init_consistent ot n T rs ss ss rs choices o1 o2 r s HT Hw Lc Er Es) as (A & B & I & C & D & E & F).
  split; [done|]. split; [done|]. split; [done|]. split; [by rewrite C, D, N.lxor_comm|]. split; [done|]. split; [done|].
  unfold keys. rewrite map_map. apply map_ext. intros x. unfold dcwEnc, encOf. by rewrite A.
Qed.

Lemma dcw_done : 0 ∉ keys -> NoDup keys -> exists out, dcwRun aes prng r s R S = Done (drIntersection o1 ++ out).
Proof using HT Hw Lc Er Es HR HS.
  destruct final_setup as (A & B & I & C & D & E & F). rewrite F. intros Z ND.
  destruct (run_eq aes prng r s R S n A B C HR HS D E Z ND) as (th & -> & _). rewrite I. eauto.
Qed.

Lemma dcw_dup : 0 ∉ keys -> ~ NoDup keys -> dcwRun aes prng r s R S = Thrown (drIntersection o1).
Proof using HT Hw Lc Er Es HR HS.
  destruct final_setup as (A & B & I & C & D & E & F). rewrite F. intros Z ND. rewrite <- I. by eapply run_dup.
Qed.

Lemma dcw_done_inv out : dcwRun aes prng r s R S = Done out -> 0 ∉ keys /\ NoDup keys.
Proof using HT Hw Lc Er Es HR HS.
  destruct final_setup as (A & B & I & C & D & E & F). rewrite F. intros H.
  assert (0 ∉ map maskKey (map (encOf aes prng (drSeed r) (bfBits n) (drMsgs r)) R)) as Z.
  { intros Z. by eapply run_zero in Z. }
  split; [done|]. destruct (decide (NoDup (map maskKey (map (encOf aes prng (drSeed r) (bfBits n) (drMsgs r)) R)))) as [|ND]; [done|].
  exfalso. rewrite (run_dup aes prng r s R S n A B C HR HS D E Z ND) in H. done.
Qed.

Lemma dcw_complete out i x : dcwRun aes prng r s R S = Done out -> R !! i = Some x -> x ∈ S -> N.of_nat i ∈ out.
Proof using HT Hw Lc Er Es HR HS.
  intros H Hi Hx. destruct (dcw_done_inv out H) as [Z ND].
  destruct final_setup as (A & B & I & C & D & E & F). rewrite F in Z, ND.
  destruct (run_eq aes prng r s R S n A B C HR HS D E Z ND) as (th & H' & L & Hth & _). rewrite H in H'. injection H' as ->.
  apply elem_of_app. right. apply NoDup_map_inv' in ND.
  apply elem_commonPositions with (x := encOf aes prng (drSeed r) (bfBits n) (drMsgs r) x); [done|by rewrite (list_lookup_fmap (encOf _ _ _ _ _)), Hi|].
  apply elem_of_list_lookup in Hx as [j Hj]. apply elem_of_list_lookup. exists j. apply Hth; [done|]. by eapply elem_of_list_lookup_2.
Qed.

Lemma dcw_sound out : dcwRun aes prng r s R S = Done out ->
  (forall corr map masks theirs x j y, recvFirst aes prng r R = Done (corr, map, masks) -> senderMasks aes prng s S corr = Done theirs ->
     x ∈ R -> S !! j = Some y -> theirs !! j = Some (dcwEnc aes prng r x) -> x = y) ->
  out = drIntersection o1 ++ commonPositions R S.
Proof using HT Hw Lc Er Es HR HS.
  intros H Hd. destruct (dcw_done_inv out H) as [Z ND].
  destruct final_setup as (A & B & I & C & D & E & F). rewrite F in Z, ND.
  destruct (run_eq aes prng r s R S n A B C HR HS D E Z ND) as (th & H' & L & Hth & Hm). rewrite H in H'.
  assert (out = drIntersection r ++ commonPositions (map (encOf aes prng (drSeed r) (bfBits n) (drMsgs r)) R) th) as -> by congruence.
  rewrite I. f_equal. apply commonPositions_enc; [by apply NoDup_map_inv' in ND|done|done|].
  intros x j y Hx Hy Ht. unfold dcwRun in H. destruct (recvFirst aes prng r R) as [[[corr mp] masks]| | |] eqn:E1; try done.
  eapply Hd; [reflexivity|by eapply Hm|done|done|]. rewrite Ht. unfold dcwEnc. by rewrite A.
Qed.

Lemma dcw_dup_item out : ~ NoDup R -> dcwRun aes prng r s R S <> Done out.
Proof using HT Hw Lc Er Es HR HS.
  intros ND H. destruct (dcw_done_inv out H) as [_ ND']. by apply NoDup_map_inv' in ND'.
Qed.

End Final.
