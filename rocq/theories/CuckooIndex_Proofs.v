(** Proofs about the cuckoo index model. *)
From Verif Require Import Base CuckooIndex_Model.

(** ** Packed words *)

Lemma packWord_add i h : i < 2 ^ 56 -> h < 256 -> packWord i h = i + h * 2 ^ 56.
Proof.
  intros Hi Hh. unfold packWord, two64.
  rewrite N.shiftl_mul_pow2.
  rewrite N.mod_small by (change (2 ^ 64) with (256 * 2 ^ 56); nia).
  rewrite <- N.lxor_lor, <- N.add_nocarry_lxor; [done| |].
  all: apply N.bits_inj; intros k; rewrite N.land_spec, N.bits_0;
    destruct (N.lt_ge_cases k 56) as [Hk|Hk];
    [rewrite N.mul_pow2_bits_low by done; apply andb_false_r|].
  all: destruct (N.eq_dec i 0) as [->|Hn]; [by rewrite N.bits_0|];
    rewrite (N.bits_above_log2 i); [done|];
    apply N.lt_le_trans with 56; [|done]; apply N.log2_lt_pow2; lia.
Qed.

Lemma wordIdx_mod w : wordIdx w = w mod 2 ^ 56.
Proof. unfold wordIdx. change (N.shiftr u64max 8) with (N.ones 56). apply N.land_ones. Qed.
Lemma wordHash_div w : wordHash w = w / 2 ^ 56.
Proof. unfold wordHash. apply N.shiftr_div_pow2. Qed.

Lemma wordIdx_pack i h : i < 2 ^ 56 -> h < 256 -> wordIdx (packWord i h) = i.
Proof.
  intros. rewrite wordIdx_mod, packWord_add by done.
  rewrite N.mod_add by done. by apply N.mod_small.
Qed.
Lemma wordHash_pack i h : i < 2 ^ 56 -> h < 256 -> wordHash (packWord i h) = h.
Proof.
  intros. rewrite wordHash_div, packWord_add by done.
  rewrite N.div_add by done. by rewrite N.div_small.
Qed.

Lemma nullIdx_val : nullIdx = 2 ^ 56 - 1.
Proof. done. Qed.
Lemma emptyWord_val : emptyWord = 2 ^ 64 - 1.
Proof. done. Qed.

Lemma packWord_not_empty i h : i < nullIdx -> h < 256 -> isEmpty (packWord i h) = false.
Proof.
  rewrite nullIdx_val. intros Hi Hh. unfold isEmpty. apply N.eqb_neq. intros He.
  assert (wordIdx (packWord i h) = wordIdx emptyWord) as Hx by congruence.
  rewrite wordIdx_pack in Hx by lia. vm_compute in Hx. lia.
Qed.

(** ** Contents *)

(** Indices stored in a vector of words, in vector order. *)
Definition occ (v : list N) : list N :=
  omap (fun w => if isEmpty w then None else Some (wordIdx w)) v.

Lemma occ_app v1 v2 : occ (v1 ++ v2) = occ v1 ++ occ v2.
Proof. apply omap_app. Qed.

Definition occW (w : N) : list N := if isEmpty w then [] else [wordIdx w].

Lemma occ_cons w v : occ (w :: v) = occW w ++ occ v.
Proof. unfold occ, occW. simpl. by destruct (isEmpty w). Qed.

Lemma occ_insert v a w old :
  v !! a = Some old ->
  Permutation (occ (<[a := w]> v) ++ occW old) (occW w ++ occ v).
Proof.
  intros Ha. rewrite (insert_take_drop v a w) by eauto using lookup_lt_Some.
  rewrite <- (take_drop_middle v a old Ha) at 3.
  rewrite !occ_app, !occ_cons. permN.
Qed.

(** ** Invariant of one object *)

Definition goodWord (c : Cuckoo) (w : N) : Prop :=
  exists i hi, w = packWord i hi /\ i < nullIdx /\ (N.to_nat i < length (cHashes c))%nat /\ hi < pNumHashes (cParams c).

Record WF (c : Cuckoo) : Prop := {
  wf_len : N.of_nat (length (cBins c)) = pNumBins (cParams c);
  wf_pos : 0 < pNumBins (cParams c);
  wf_h0 : 0 < pNumHashes (cParams c);
  wf_h3 : pNumHashes (cParams c) <= 3;
  wf_bins : forall a w, cBins c !! a = Some w -> w = emptyWord \/
      (goodWord c w /\
       getHashOf (cHashes c) (pNumBins (cParams c)) (wordIdx w) (wordHash w) = Some (N.of_nat a));
  wf_stash : exists ws k, cStash c = ws ++ replicate k emptyWord /\ Forall (goodWord c) ws }.

(** All indices stored in the object. *)
Definition stored (c : Cuckoo) : list N := occ (cBins c) ++ occ (cStash c).

Definition same (c c' : Cuckoo) : Prop :=
  cParams c' = cParams c /\ cLimit c' = cLimit c /\ cHashes c' = cHashes c /\
  length (cStash c') = length (cStash c).

Definition stashFull (c : Cuckoo) : Prop := Forall (fun w => isEmpty w = false) (cStash c).

Lemma isEmpty_emptyWord : isEmpty emptyWord = true.
Proof. done. Qed.
Lemma isEmpty_true w : isEmpty w = true -> w = emptyWord.
Proof. unfold isEmpty. apply N.eqb_eq. Qed.

Lemma goodWord_facts c w : pNumHashes (cParams c) <= 3 -> goodWord c w ->
  isEmpty w = false /\ wordIdx w < nullIdx /\ (N.to_nat (wordIdx w) < length (cHashes c))%nat /\
  wordHash w < pNumHashes (cParams c) /\ w = packWord (wordIdx w) (wordHash w).
Proof.
  intros H3 (i & hi & -> & Hi & Hl & Hh).
  assert (i < 2 ^ 56) by (rewrite nullIdx_val in Hi; lia).
  rewrite wordIdx_pack, wordHash_pack by lia.
  split_and!; try done. apply packWord_not_empty; lia.
Qed.

Lemma getHashOf_ok c i hi : WF c -> (N.to_nat i < length (cHashes c))%nat -> hi < pNumHashes (cParams c) ->
  exists a, getHashOf (cHashes c) (pNumBins (cParams c)) i hi = Some a /\ a < pNumBins (cParams c).
Proof.
  intros W Hi Hh. destruct W. unfold getHashOf, getHash, readN.
  destruct (N.ltb_spec i (N.of_nat (length (cHashes c)))); [|lia].
  destruct (lookup_lt_is_Some_2 _ _ Hi) as [b ->].
  destruct (N.eqb_spec (pNumBins (cParams c)) 0); [lia|].
  destruct (N.ltb_spec 4 hi); [lia|]. simpl. eexists. split; [done|].
  apply N.mod_lt. lia.
Qed.

Lemma firstEmpty_spec st k0 :
  match firstEmpty st k0 with
  | None => Forall (fun w => isEmpty w = false) st
  | Some k => exists ws, k = k0 + N.of_nat (length ws) /\ Forall (fun w => isEmpty w = false) ws /\
               exists st', st = ws ++ emptyWord :: st'
  end.
Proof.
  revert k0. induction st as [|w st IH]; intros k0; simpl; [constructor|].
  destruct (isEmpty w) eqn:Hw.
  - apply isEmpty_true in Hw as ->. exists []. simpl. split; [lia|]. split; [constructor|]. by exists st.
  - specialize (IH (k0 + 1)). destruct (firstEmpty st (k0 + 1)).
    + destruct IH as (ws & -> & Hws & st' & ->). exists (w :: ws). simpl.
      split; [lia|]. split; [by constructor|]. by exists st'.
    + by constructor.
Qed.

Lemma goodWord_ext c c' w : cParams c' = cParams c -> length (cHashes c') = length (cHashes c) ->
  goodWord c w -> goodWord c' w.
Proof. intros Hp Hl (i & hi & ? & ? & ? & ?). exists i, hi. rewrite Hp, Hl. done. Qed.

Lemma replicate_shape (ws : list N) k ws2 st' :
  Forall (fun w => isEmpty w = false) ws -> Forall (fun w => isEmpty w = false) ws2 ->
  ws ++ replicate k emptyWord = ws2 ++ emptyWord :: st' ->
  ws2 = ws /\ exists k', k = S k' /\ st' = replicate k' emptyWord.
Proof.
  intros F1 F2. revert ws2 F2. induction ws as [|w ws IH]; intros ws2 F2 E; simpl in E.
  - destruct ws2 as [|w2 ws2].
    + split; [done|]. destruct k as [|k]; [done|]. exists k. simpl in E. by injection E as ->.
    + inversion F2; subst. destruct k as [|k]; [done|]. simpl in E. injection E as <- ?. done.
  - inversion F1; subst. destruct ws2 as [|w2 ws2]; simpl in E.
    + injection E as -> ?. done.
    + injection E as <- E. inversion F2; subst. destruct (IH H2 ws2 H4 E) as (-> & k' & -> & ->).
      eauto.
Qed.

Lemma goodWords_nonempty c ws : pNumHashes (cParams c) <= 3 ->
  Forall (goodWord c) ws -> Forall (fun w => isEmpty w = false) ws.
Proof. intros H3 F. eapply Forall_impl; [exact F|]. intros w Hw. by apply (goodWord_facts c w). Qed.

Lemma toStash_spec c idx hi :
  WF c -> idx < nullIdx -> (N.to_nat idx < length (cHashes c))%nat -> hi < pNumHashes (cParams c) ->
  match toStash c idx hi with
  | Done c' => WF c' /\ same c c' /\ cBins c' = cBins c /\ Permutation (stored c') (idx :: stored c)
  | Thrown c' => c' = c /\ stashFull c
  | _ => False
  end.
Proof.
  intros W Hi Hl Hh. unfold toStash.
  pose proof (firstEmpty_spec (cStash c) 0) as Hf.
  destruct (firstEmpty (cStash c) 0) as [k|]; [|done].
  destruct Hf as (ws2 & -> & Hws2 & st' & Est).
  destruct W as [Wl Wp Wh0 Wh3 Wb (ws & n & Es & Fs)].
  pose proof (goodWords_nonempty c ws Wh3 Fs) as Fn.
  rewrite Es in Est. destruct (replicate_shape ws n ws2 st' Fn Hws2 Est) as (-> & n' & -> & ->).
  unfold swapAt. rewrite Es.
  assert ((ws ++ replicate (S n') emptyWord) !! N.to_nat (0 + N.of_nat (length ws)) = Some emptyWord) as Hk.
  { replace (N.to_nat (0 + N.of_nat (length ws))) with (length ws + 0)%nat by lia.
    by rewrite lookup_app_r, Nat.add_comm, Nat.add_sub by lia. }
  destruct (readN (ws ++ replicate (S n') emptyWord) (0 + N.of_nat (length ws))) as [old|] eqn:Hr;
    [|apply readN_Some in Hk; congruence].
  apply readN_Some in Hr. assert (old = emptyWord) as -> by congruence.
  assert (<[N.to_nat (0 + N.of_nat (length ws)):=packWord idx hi]> (ws ++ replicate (S n') emptyWord)
     = (ws ++ [packWord idx hi]) ++ replicate n' emptyWord) as Eins.
  { replace (N.to_nat (0 + N.of_nat (length ws))) with (length ws + 0)%nat by lia.
    rewrite insert_app_r. simpl. by rewrite <- app_assoc. }
  assert (goodWord c (packWord idx hi)) as G by (exists idx, hi; done).
  split_and!.
  - constructor; simpl; try done.
    exists (ws ++ [packWord idx hi]), n'. split; [done|].
    apply Forall_app; split; [exact Fs|]. constructor; [exact G|constructor].
  - unfold same. split_and!; try done.
    cbn [cStash]. rewrite Eins, Es. rewrite !app_length, !replicate_length. simpl. lia.
  - done.
  - unfold stored. cbn [cStash cBins]. rewrite Eins, Es, !occ_app. rewrite occ_cons.
    change (occ (replicate (S n') emptyWord)) with (occ (replicate n' emptyWord)).
    unfold occW. destruct (goodWord_facts c _ Wh3 G) as (-> & _).
    rewrite wordIdx_pack by (rewrite nullIdx_val in Hi; lia).
    change (occ []) with (@nil N). permN.
Qed.

Lemma stored_insert_bins c a w old st :
  cBins c !! a = Some old ->
  Permutation (stored (mkCuckoo (cParams c) (cLimit c) (cHashes c) (<[a := w]> (cBins c)) st) ++ occW old)
              (occW w ++ occ (cBins c) ++ occ st).
Proof.
  intros Ha. unfold stored; simpl. pose proof (occ_insert _ a w old Ha). permN.
Qed.

(** One swap into a bin. *)
Lemma swap_spec c idx hi a :
  WF c -> idx < nullIdx -> (N.to_nat idx < length (cHashes c))%nat -> hi < pNumHashes (cParams c) ->
  getHashOf (cHashes c) (pNumBins (cParams c)) idx hi = Some a -> a < pNumBins (cParams c) ->
  exists bins' idx' hi', swapAt (cBins c) a idx hi = Some (bins', idx', hi') /\
    let c' := mkCuckoo (cParams c) (cLimit c) (cHashes c) bins' (cStash c) in
    WF c' /\ same c c' /\
    ((idx' = nullIdx /\ Permutation (stored c') (idx :: stored c)) \/
     (idx' < nullIdx /\ (N.to_nat idx' < length (cHashes c))%nat /\ hi' < pNumHashes (cParams c) /\
      Permutation (idx' :: stored c') (idx :: stored c))).
Proof.
  intros W Hi Hl Hh Ha Hab. unfold swapAt.
  pose proof W as W0. destruct W as [Wl Wp Wh0 Wh3 Wb Ws].
  destruct (lookup_lt_is_Some_2 (cBins c) (N.to_nat a)) as [old Hold]; [lia|].
  rewrite (proj2 (readN_Some (cBins c) a old) Hold).
  do 3 eexists. split; [reflexivity|]. simpl.
  assert (goodWord c (packWord idx hi)) as G by (exists idx, hi; done).
  destruct (goodWord_facts c _ Wh3 G) as (Ge & _).
  assert (idx < 2 ^ 56) as Hi56 by (rewrite nullIdx_val in Hi; lia).
  split_and!; try done.
  - constructor; simpl; try done.
    + by rewrite insert_length.
    + intros a' w Hw. destruct (decide (a' = N.to_nat a)) as [->|Hne].
      * rewrite list_lookup_insert in Hw by (eapply lookup_lt_Some; eauto).
        injection Hw as <-. right. split; [done|].
        rewrite wordIdx_pack, wordHash_pack, N2Nat.id by lia. done.
      * rewrite list_lookup_insert_ne in Hw by done. apply (Wb a' w Hw).
  - pose proof (stored_insert_bins c (N.to_nat a) (packWord idx hi) old (cStash c) Hold) as P.
    unfold occW in P. rewrite Ge, wordIdx_pack in P by lia.
    destruct (Wb _ _ Hold) as [->|[Gold _]].
    + left. split; [done|]. rewrite isEmpty_emptyWord in P. unfold stored at 2.
      rewrite app_nil_r in P. exact P.
    + right. destruct (goodWord_facts c old Wh3 Gold) as (E & ? & ? & ? & ?).
      split_and!; try done. rewrite E in P. unfold stored at 2.
      etransitivity; [|exact P]. by rewrite Permutation_app_comm.
Qed.

Lemma same_trans c1 c2 c3 : same c1 c2 -> same c2 c3 -> same c1 c3.
Proof. unfold same. intros (?&?&?&?) (?&?&?&?). split_and!; congruence. Qed.
Lemma same_refl c : same c c.
Proof. done. Qed.

Lemma insertLoop_spec left : forall c idx hi,
  WF c -> idx < nullIdx -> (N.to_nat idx < length (cHashes c))%nat -> hi < pNumHashes (cParams c) ->
  match insertLoop left c idx hi with
  | Done c' => WF c' /\ same c c' /\ Permutation (stored c') (idx :: stored c)
  | Thrown c' => WF c' /\ same c c' /\ stashFull c' /\
      exists lost, Permutation (lost :: stored c') (idx :: stored c)
  | _ => False
  end.
Proof.
  induction left as [|left IH]; intros c idx hi W Hi Hl Hh; cbn [insertLoop].
  all: destruct (getHashOf_ok c idx hi W Hl Hh) as (a & Ha & Hab); rewrite Ha.
  all: destruct (swap_spec c idx hi a W Hi Hl Hh Ha Hab) as (bins' & idx' & hi' & -> & W' & S' & Hcase);
    cbn zeta in *.
  all: set (c1 := mkCuckoo (cParams c) (cLimit c) (cHashes c) bins' (cStash c)) in *.
  all: destruct Hcase as [[-> P]|(Hi' & Hl' & Hh' & P)];
    [by rewrite N.eqb_refl|].
  all: destruct (N.eqb_spec idx' nullIdx); [lia|].
  - pose proof (toStash_spec c1 idx' hi' W' Hi' Hl' Hh') as T.
    destruct (toStash c1 idx' hi') as [c2|c2| |]; try done.
    + destruct T as (W2 & S2 & _ & P2). split; [done|]; split; [exact (same_trans _ _ _ S' S2)|].
      rewrite P2. exact P.
    + destruct T as (-> & F). split; [done|]; split; [done|]; split; [done|]. eauto.
  - destruct (N.eqb_spec (pNumHashes (cParams c)) 0) as [H0|H0]; [destruct W; lia|].
    assert ((1 + hi') mod pNumHashes (cParams c) < pNumHashes (cParams c1)) as Hm
      by (apply N.mod_lt; done).
    specialize (IH c1 idx' _ W' Hi' Hl' Hm).
    destruct (insertLoop left c1 idx' _) as [c2|c2| |]; try done.
    + destruct IH as (W2 & S2 & P2). split; [done|]; split; [exact (same_trans _ _ _ S' S2)|].
      rewrite P2. exact P.
    + destruct IH as (W2 & S2 & F & lost & P2).
      split; [done|]; split; [exact (same_trans _ _ _ S' S2)|]. split; [done|]. exists lost. rewrite P2. exact P.
Qed.

Lemma insertOne_spec c idx hi t :
  WF c -> idx < nullIdx -> (N.to_nat idx < length (cHashes c))%nat -> hi < pNumHashes (cParams c) ->
  (t <= cLimit c)%nat ->
  match insertOne c idx hi t with
  | Done c' => WF c' /\ same c c' /\ Permutation (stored c') (idx :: stored c)
  | Thrown c' => WF c' /\ same c c' /\ stashFull c' /\
      exists lost, Permutation (lost :: stored c') (idx :: stored c)
  | _ => False
  end.
Proof.
  intros. unfold insertOne. destruct (Nat.ltb_spec (cLimit c) t); [lia|]. by apply insertLoop_spec.
Qed.

(** ** Batches *)

Definition validIdx (c : Cuckoo) (i : N) : Prop :=
  i < nullIdx /\ (N.to_nat i < length (cHashes c))%nat.

(** [set]: the items whose hash has been written to the object, [hand]: those of
    them that are currently in registers and not in the table. *)
Record Inv (c : Cuckoo) (hand : list N) (set : list (N * N)) : Prop := {
  inv_wf : WF c;
  inv_perm : Permutation (stored c ++ hand) (set.*1);
  inv_nodup : NoDup (set.*1);
  inv_hash : forall i h, (i, h) ∈ set -> validIdx c i /\ cHashes c !! N.to_nat i = Some h }.

Definition shape (c c' : Cuckoo) : Prop :=
  cParams c' = cParams c /\ cLimit c' = cLimit c /\ length (cHashes c') = length (cHashes c) /\
  length (cStash c') = length (cStash c).

Lemma shape_refl c : shape c c.
Proof. done. Qed.
Lemma shape_trans c1 c2 c3 : shape c1 c2 -> shape c2 c3 -> shape c1 c3.
Proof. unfold shape. intros (?&?&?&?) (?&?&?&?). split_and!; congruence. Qed.
Lemma same_shape c c' : same c c' -> shape c c'.
Proof. unfold same, shape. intros (?&?&Hh&?). rewrite Hh. done. Qed.
Lemma shape_valid c c' i : shape c c' -> validIdx c i -> validIdx c' i.
Proof. unfold shape, validIdx. intros (?&?&Hh&?). by rewrite Hh. Qed.

Lemma Inv_hand c h1 h2 set : Permutation h1 h2 -> Inv c h1 set -> Inv c h2 set.
Proof. intros P [? ? ? ?]. constructor; try done. by rewrite <- P. Qed.

Lemma Inv_set c h s1 s2 : Permutation s1 s2 -> Inv c h s1 -> Inv c h s2.
Proof.
  intros P [? ? ? Hh]. constructor; try done.
  - by rewrite <- P.
  - by rewrite <- P.
  - intros i x. rewrite <- P. apply Hh.
Qed.

(** Same hashes, new table contents. *)
Lemma Inv_same c c' h h' set : same c c' -> WF c' -> Permutation (stored c' ++ h') (stored c ++ h) ->
  Inv c h set -> Inv c' h' set.
Proof.
  intros S W P [? ? ? Hh]. constructor; try done.
  - by rewrite P.
  - intros i x Hx. destruct (Hh i x Hx). destruct S as (?&?&Hhs&?).
    unfold validIdx in *. rewrite Hhs. done.
Qed.

Lemma occ_in v a w : v !! a = Some w -> isEmpty w = false -> wordIdx w ∈ occ v.
Proof.
  intros Ha He. apply elem_of_list_omap. exists w. split; [by apply elem_of_list_lookup_2 in Ha|].
  by rewrite He.
Qed.

Lemma setHash_spec c hand set i h :
  Inv c hand set -> i ∉ set.*1 -> validIdx c i ->
  exists c', setHash c i h = Some c' /\ Inv c' (i :: hand) ((i, h) :: set) /\ shape c c'.
Proof.
  intros I Hn [Hi Hl]. pose proof I as [W P ND Hh].
  unfold setHash, writeN. destruct (N.ltb_spec i (N.of_nat (length (cHashes c)))); [|lia].
  eexists. split; [reflexivity|]. split; [|unfold shape; simpl; by rewrite insert_length].
  constructor; simpl.
  - destruct W as [Wl Wp Wh0 Wh3 Wb (ws & k & Es & Fs)]. constructor; simpl; try done.
    + intros a w Hw. destruct (Wb a w Hw) as [->|[G E]]; [by left|right].
      split; [eapply goodWord_ext; [..|exact G]; simpl; by rewrite ?insert_length|].
      destruct (goodWord_facts c w Wh3 G) as (He & ?).
      assert (wordIdx w ≠ i) as Hne.
      { intros <-. apply Hn. rewrite <- P. apply elem_of_app; left. apply elem_of_app; left.
        by eapply occ_in. }
      unfold getHashOf, readN in *. rewrite insert_length.
      destruct (wordIdx w <? N.of_nat (length (cHashes c))); [|done].
      rewrite list_lookup_insert_ne by lia. exact E.
    + exists ws, k. split; [done|]. eapply Forall_impl; [exact Fs|].
      intros w G. eapply goodWord_ext; [..|exact G]; simpl; by rewrite ?insert_length.
  - rewrite <- P. change (stored _) with (stored c) at 1. permN.
  - constructor; done.
  - intros j x Hx. apply elem_of_cons in Hx as [[= -> ->]|Hx].
    + split; [split; simpl; rewrite ?insert_length; done|]. by rewrite list_lookup_insert.
    + destruct (Hh j x Hx) as [[? ?] ?]. unfold validIdx. simpl. rewrite insert_length.
      split; [done|].
      rewrite list_lookup_insert_ne; [done|].
      intros E. assert (i = j) as -> by lia. apply Hn. apply elem_of_list_fmap. by exists (j, x).
Qed.

Definition laneOK (c : Cuckoo) (l : lane) : Prop :=
  let '(idx, hi, t) := l in
  validIdx c idx /\ hi < pNumHashes (cParams c) /\ (t <= cLimit c)%nat.

Definition laneIdx (l : lane) : N := l.1.1.
Definition laneTry (l : lane) : nat := l.2.

(** indices in the lanes' registers *)
Definition handL (ls : list lane) : list N :=
  filter (fun i => i ≠ nullIdx) (laneIdx <$> ls).

Lemma handL_cons i hi t ls :
  handL ((i, hi, t) :: ls) = (if decide (i ≠ nullIdx) then [i] else []) ++ handL ls.
Proof. unfold handL. rewrite fmap_cons, filter_cons. simpl. by destruct (decide _). Qed.
Lemma handL_null hi t ls : handL ((nullIdx, hi, t) :: ls) = handL ls.
Proof. rewrite handL_cons. by destruct (decide _). Qed.
Lemma handL_ok i hi t ls : i < nullIdx -> handL ((i, hi, t) :: ls) = i :: handL ls.
Proof. intros. rewrite handL_cons. destruct (decide _); [done|]. exfalso. lia. Qed.
Lemma handL_length ls : (length (handL ls) <= length ls)%nat.
Proof.
  induction ls as [|[[i hi] t] ls IH]; [done|]. rewrite handL_cons. destruct (decide _); simpl; lia.
Qed.

Lemma laneOK_shape c c' l : shape c c' -> laneOK c l -> laneOK c' l.
Proof.
  destruct l as [[i hi] t]. unfold laneOK. intros S (?&?&?).
  pose proof S as (Hp & Hlim & _ & _). rewrite Hp, Hlim. split; [|done]. by eapply shape_valid.
Qed.

Lemma Forall_laneOK_shape c c' ls : shape c c' -> Forall (laneOK c) ls -> Forall (laneOK c') ls.
Proof. intros S F. eapply Forall_impl; [exact F|]. intros l. by apply laneOK_shape. Qed.

Lemma fillLanes_spec items : forall c hand set,
  Inv c hand set -> NoDup (set.*1 ++ items.*1) -> Forall (validIdx c) (items.*1) ->
  exists c' ls set', fillLanes c items = Some (c', ls) /\ Inv c' (handL ls ++ hand) set' /\
    Permutation set' (items ++ set) /\ shape c c' /\ (0 < pNumHashes (cParams c) -> Forall (laneOK c') ls) /\
    length ls = length items /\ laneIdx <$> ls = items.*1.
Proof.
  induction items as [|[i h] items IH]; intros c hand set I ND F.
  - exists c, [], set. simpl. split_and!; try done. 
  - simpl in ND, F. inversion F as [|? ? Fi F']; subst.
    apply NoDup_app in ND as (ND1 & ND2 & ND3). apply NoDup_cons in ND3 as [ND3 ND4].
    assert (i ∉ set.*1) as Hni by (intros Hi; apply (ND2 i Hi); by constructor).
    destruct (setHash_spec c hand set i h I Hni Fi) as (c1 & Hs & I1 & S1).
    destruct (IH c1 (i :: hand) ((i, h) :: set) I1) as (c2 & ls & set' & Hf & I2 & P2 & S2 & L2 & Len & Ix).
    { simpl. apply NoDup_cons. split.
      - intros Hx. apply elem_of_app in Hx as [Hx|Hx]; done.
      - apply NoDup_app. split; [done|]. split; [|done]. intros x Hx Hx'. apply (ND2 x Hx).
        by constructor. }
    { eapply Forall_impl; [exact F'|]. intros x. by apply shape_valid. }
    cbn [fillLanes]. rewrite Hs, Hf.
    exists c2, ((i, 0, O) :: ls), set'. split; [done|].
    assert (shape c c2) as S by (eapply shape_trans; eauto).
    destruct Fi as [Hi Hl].
    split.
    { rewrite handL_ok by done. eapply Inv_hand; [|exact I2]. permN. }
    split; [rewrite P2; permN|]. split; [done|]. split.
    { intros H0. constructor.
      - destruct S as (Hp & Hlim & Hlh & _). unfold laneOK, validIdx. rewrite Hp, Hlim, Hlh. split_and!; try done. lia.
      - apply L2. destruct S1 as (-> & _). done. }
    split; [simpl; lia|]. by rewrite !fmap_cons, Ix.
Qed.

(** *** The swap phase of the lanes *)

Definition laneMid (c : Cuckoo) (l : lane) : Prop :=
  laneOK c l \/ (laneIdx l = nullIdx /\ (laneTry l <= cLimit c)%nat).

Lemma laneAddrs_ok c ls : WF c -> Forall (laneOK c) ls ->
  exists addrs, laneAddrs c ls = Some addrs /\
    Forall2 (fun l a => getHashOf (cHashes c) (pNumBins (cParams c)) (laneIdx l) (l.1.2) = Some a /\ a < pNumBins (cParams c)) ls addrs.
Proof.
  intros W. induction ls as [|[[i hi] t] ls IH]; intros F; [by exists []|].
  apply Forall_cons in F as [((Hi & Hl) & Hh & Ht) F'].
  destruct (IH F') as (addrs & E & F2).
  destruct (getHashOf_ok c i hi W Hl Hh) as (a & Ha & Hab).
  exists (a :: addrs). simpl. rewrite Ha, E. split; [done|]. by constructor.
Qed.

Lemma laneSwaps_spec ls : forall c addrs extra set,
  Inv c (handL ls ++ extra) set -> Forall (laneOK c) ls ->
  Forall2 (fun l a => getHashOf (cHashes c) (pNumBins (cParams c)) (laneIdx l) (l.1.2) = Some a /\ a < pNumBins (cParams c)) ls addrs ->
  exists bins' ls', laneSwaps (cBins c) ls addrs = Some (bins', ls') /\
    let c' := mkCuckoo (cParams c) (cLimit c) (cHashes c) bins' (cStash c) in
    Inv c' (handL ls' ++ extra) set /\ same c c' /\
    Forall (laneMid c') ls' /\ laneTry <$> ls' = laneTry <$> ls.
Proof.
  induction ls as [|[[i hi] t] ls IH]; intros c addrs extra set I F F2.
  - inversion F2; subst. exists (cBins c), []. simpl. split; [done|]. destruct c. simpl in *. split_and!; try done.
  - inversion F2 as [|? a ? addrs' [Ha Hab] F2']; subst. apply Forall_cons in F as [((Hi & Hl) & Hh & Ht) F'].
    simpl in Ha. pose proof (inv_wf _ _ _ I) as W.
    destruct (swap_spec c i hi a W Hi Hl Hh Ha Hab) as (bins1 & i' & hi' & Hsw & W1 & S1 & Hcase).
    cbn zeta in *. set (c1 := mkCuckoo (cParams c) (cLimit c) (cHashes c) bins1 (cStash c)) in *.
    set (mid := if decide (i' ≠ nullIdx) then [i'] else []).
    assert (Inv c1 (handL ls ++ (mid ++ extra)) set) as I1.
    { eapply Inv_same; [exact S1|exact W1| |exact I].
      rewrite handL_ok by done. unfold mid.
      destruct Hcase as [[-> P]|(Hi' & _ & _ & P)]; destruct (decide _); try (exfalso; lia); permN. }
    destruct (IH c1 addrs' (mid ++ extra) set I1) as (bins' & ls' & Hs & I2 & S2 & M2 & T2).
    { exact F'. }
    { exact F2'. }
    cbn [laneSwaps]. rewrite Hsw. cbn [cBins c1] in Hs. rewrite Hs.
    exists bins', ((i', hi', t) :: ls'). split; [done|]. cbn zeta in *.
    split.
    { eapply Inv_hand; [|exact I2]. rewrite handL_cons. fold mid. permN. }
    split; [done|]. split.
    { constructor; [|exact M2].
      destruct Hcase as [[-> P]|(Hi' & Hl' & Hh' & P)].
      - right. done.
      - left. unfold laneOK, validIdx. simpl. done. }
    by rewrite !fmap_cons, T2.
Qed.

Definition tries (lim : nat) (ls : list lane) : nat :=
  sum_list ((fun l => lim - laneTry l)%nat <$> ls).

Lemma tries_cons lim i hi t ls : tries lim ((i, hi, t) :: ls) = (lim - t + tries lim ls)%nat.
Proof. done. Qed.

Lemma stashFull_same c c' : cStash c' = cStash c -> stashFull c -> stashFull c'.
Proof. unfold stashFull. by intros ->. Qed.

(** Taking the next item of the batch into a free lane. *)
Lemma take_item c hand set j h rest :
  Inv c hand set -> NoDup (set.*1 ++ ((j, h) :: rest).*1) -> Forall (validIdx c) (((j, h) :: rest).*1) ->
  exists c1, setHash c j h = Some c1 /\ Inv c1 (j :: hand) ((j, h) :: set) /\ shape c c1 /\
    NoDup (((j, h) :: set).*1 ++ rest.*1) /\ Forall (validIdx c1) (rest.*1) /\ validIdx c1 j.
Proof.
  intros I ND V. simpl in ND, V. inversion V as [|? ? Vj V']; subst.
  apply NoDup_app in ND as (ND1 & ND2 & ND3). apply NoDup_cons in ND3 as [ND3 ND4].
  assert (j ∉ set.*1) as Hnj by (intros Hj; apply (ND2 j Hj); by constructor).
  destruct (setHash_spec c _ set j h I Hnj Vj) as (c1 & Hs & I1 & S1).
  exists c1. split; [done|]. split; [done|]. split; [done|]. split; [|split].
  - simpl. apply NoDup_cons. split.
    + intros Hx. apply elem_of_app in Hx as [Hx|Hx]; done.
    + apply NoDup_app. split_and!; try done. intros x Hx Hx'. apply (ND2 x Hx). by constructor.
  - eapply Forall_impl; [exact V'|]. intros x. by apply shape_valid.
  - by eapply shape_valid.
Qed.

Lemma laneMid_shape c c' l : shape c c' -> laneMid c l -> laneMid c' l.
Proof.
  intros S [Hl|[? Ht]]; [left; by eapply laneOK_shape|right].
  destruct S as (_ & -> & _). done.
Qed.

Lemma Forall_laneMid_shape c c' ls : shape c c' -> Forall (laneMid c) ls -> Forall (laneMid c') ls.
Proof. intros S F. eapply Forall_impl; [exact F|]. intros l. by apply laneMid_shape. Qed.

Lemma laneUpdate_spec ls : forall c pre rest set,
  pNumHashes (cParams c) = 3 ->
  Inv c (handL ls ++ pre) set -> Forall (laneMid c) ls ->
  NoDup (set.*1 ++ rest.*1) -> Forall (validIdx c) (rest.*1) ->
  (length ls <= length rest)%nat ->
  match laneUpdate c ls rest with
  | Done (c', ls', rest') =>
      exists used set', rest = used ++ rest' /\ Permutation set' (used ++ set) /\
        Inv c' (handL ls' ++ pre) set' /\ shape c c' /\ Forall (laneOK c') ls' /\
        length ls' = length ls /\
        (tries (cLimit c) ls' + length rest' * (cLimit c + 1) + length ls <=
         tries (cLimit c) ls + length rest * (cLimit c + 1))%nat
  | Thrown (c', _, _) =>
      exists used rest' lost set', rest = used ++ rest' /\ Permutation set' (used ++ set) /\
        Inv c' lost set' /\ shape c c' /\ stashFull c' /\
        (length lost <= length pre + length ls)%nat
  | _ => False
  end.
Proof.
  induction ls as [|[[i hi] t] ls IH]; intros c pre rest set H3 I F ND V Hlen.
  - simpl. exists [], set. split_and!; try done. simpl. lia.
  - inversion F as [|? ? Fm F']; subst. cbn [laneUpdate].
    assert (forall c0 j h rest0, shape c c0 -> rest = (j, h) :: rest0 -> Inv c0 (handL ls ++ pre) set ->
      match
        match setHash c0 j h with
        | None => UB
        | Some c' =>
            match laneUpdate c' ls rest0 with
            | Done (c'', r, rest'') => Done (c'', (j, 0, O) :: r, rest'')
            | o => o
            end
        end
      with
      | Done (c', ls', rest') =>
          exists used set', rest = used ++ rest' /\ Permutation set' (used ++ set) /\
            Inv c' (handL ls' ++ pre) set' /\ shape c c' /\ Forall (laneOK c') ls' /\
            length ls' = length ((i, hi, t) :: ls) /\
            (tries (cLimit c) ls' + length rest' * (cLimit c + 1) + length ((i, hi, t) :: ls) <=
             tries (cLimit c) ((i, hi, t) :: ls) + length rest * (cLimit c + 1))%nat
      | Thrown (c', _, _) =>
          exists used rest' lost set', rest = used ++ rest' /\ Permutation set' (used ++ set) /\
            Inv c' lost set' /\ shape c c' /\ stashFull c' /\
            (length lost <= length pre + length ((i, hi, t) :: ls))%nat
      | _ => False
      end) as NEXT.
    { intros c0 j h rest0 S0 -> I0.
      destruct (take_item c0 _ set j h rest0 I0 ND) as (c1 & -> & I1 & S1 & ND1 & V1 & Vj).
      { eapply Forall_impl; [exact V|]. intros x. by apply shape_valid. }
      pose proof (shape_trans _ _ _ S0 S1) as S01. pose proof S01 as (Hp1 & Hlim1 & Hlh1 & Hst1).
      assert (Inv c1 (handL ls ++ (j :: pre)) ((j, h) :: set)) as I1'.
      { eapply Inv_hand; [|exact I1]. permN. }
      assert (pNumHashes (cParams c1) = 3) as H31 by (by rewrite Hp1).
      assert (length ls <= length rest0)%nat as Hlen1 by (simpl in Hlen; lia).
      pose proof (IH c1 (j :: pre) rest0 ((j, h) :: set) H31 I1' (Forall_laneMid_shape _ _ _ S01 F') ND1 V1 Hlen1) as IH1.
      destruct (laneUpdate c1 ls rest0) as [[[c' ls'] rest']|[[c' ls'] rest']| |]; [| |done|done].
      - destruct IH1 as (used & set' & -> & P & I2 & S2 & F2 & L2 & M2).
        exists ((j, h) :: used), set'.
        split; [done|]. split; [rewrite P; permN|]. split.
        { rewrite handL_ok by apply Vj. eapply Inv_hand; [|exact I2]. permN. }
        pose proof (shape_trans _ _ _ S01 S2) as S. pose proof S as (Hp & Hlim & Hlh & _).
        split; [done|]. split.
        { constructor; [|done].
          unfold laneOK. split; [exact (shape_valid _ _ _ S2 Vj)|]. split; [rewrite Hp, H3; lia|rewrite Hlim; lia]. }
        split; [simpl; f_equal; exact L2|]. rewrite Hlim1 in M2. rewrite !tries_cons. cbn [length]. lia.
      - destruct IH1 as (used & rest'' & lost & set' & -> & P & I2 & S2 & F2 & L2).
        exists ((j, h) :: used), rest'', lost, set'. split; [done|]. split; [rewrite P; permN|].
        split; [done|]. split; [eapply shape_trans; eauto|]. split; [done|]. simpl in *. lia. }
    destruct (N.eqb_spec i nullIdx) as [->|Hne].
    + rewrite handL_null in I.
      destruct rest as [|[j h] rest]; [simpl in Hlen; lia|]. by apply NEXT.
    + destruct Fm as [((Hi & Hl) & Hh & Ht)|[? _]]; [|done].
      rewrite handL_ok in I by done.
      destruct (Nat.eqb_spec t (cLimit c)) as [->|Htl].
      * pose proof (toStash_spec c i hi (inv_wf _ _ _ I) Hi Hl Hh) as T.
        destruct (toStash c i hi) as [c1|c1| |]; try done.
        -- destruct T as (W1 & S1 & _ & P1).
           destruct rest as [|[j h] rest]; [simpl in Hlen; lia|].
           apply NEXT; [by apply same_shape|done|].
           eapply Inv_same; [exact S1|exact W1| |exact I]. permN.
        -- destruct T as (-> & Fst). exists [], rest, (i :: handL ls ++ pre), set.
           split; [done|]. split; [done|]. split; [done|]. split; [done|]. split; [done|].
           pose proof (handL_length ls). simpl. rewrite app_length. lia.
      * assert (Inv c (handL ls ++ (i :: pre)) set) as I1 by (eapply Inv_hand; [|exact I]; permN).
        assert (length ls <= length rest)%nat as Hlen1 by (simpl in Hlen; lia).
        pose proof (IH c (i :: pre) rest set H3 I1 F' ND V Hlen1) as IH1.
        destruct (laneUpdate c ls rest) as [[[c' ls'] rest']|[[c' ls'] rest']| |]; [| |done|done].
        -- destruct IH1 as (used & set' & -> & P & I2 & S2 & F2 & L2 & M2).
           exists used, set'. split; [done|]. split; [done|]. split.
           { rewrite handL_ok by done. eapply Inv_hand; [|exact I2]. permN. }
           pose proof S2 as (Hp & Hlim & Hlh & _).
           split; [done|]. split.
           { constructor; [|done]. unfold laneOK. split; [apply (shape_valid c); done|]. split; [|rewrite Hlim; lia].
             rewrite Hp, H3. apply N.mod_lt. lia. }
           split; [simpl; lia|]. rewrite !tries_cons. cbn [length]. lia.
        -- destruct IH1 as (used & rest'' & lost & set' & -> & P & I2 & S2 & F2 & L2).
           exists used, rest'', lost, set'. split; [done|]. split; [done|].
           split; [done|]. split; [done|]. split; [done|]. simpl in *. lia.
Qed.

Lemma laneSwaps_length bins ls addrs bins' ls' :
  laneSwaps bins ls addrs = Some (bins', ls') -> length ls' = length ls.
Proof.
  revert bins addrs bins' ls'. induction ls as [|[[i hi] t] ls IH]; intros bins addrs bins' ls' E; simpl in E.
  - destruct addrs; [|done]. by injection E as <- <-.
  - destruct addrs as [|a addrs]; [done|].
    destruct (swapAt bins a i hi) as [[[b1 i1] h1]|]; [|done].
    destruct (laneSwaps b1 ls addrs) as [[b2 r]|] eqn:E2; [|done].
    injection E as <- <-. simpl. f_equal. by eapply IH.
Qed.

Lemma tries_ext lim ls ls' : laneTry <$> ls' = laneTry <$> ls -> tries lim ls' = tries lim ls.
Proof.
  revert ls'. induction ls as [|[[i hi] t] ls IH]; intros [|[[i' hi'] t'] ls'] E; try done.
  rewrite !fmap_cons in E. injection E as E1 E2. rewrite !tries_cons.
  unfold laneTry in E1. simpl in E1. subst. by rewrite (IH _ E2).
Qed.

Lemma fastLoop_spec fuel : forall c ls rest set,
  pNumHashes (cParams c) = 3 ->
  Inv c (handL ls) set -> Forall (laneOK c) ls -> length ls = 8%nat ->
  NoDup (set.*1 ++ rest.*1) -> Forall (validIdx c) (rest.*1) ->
  (tries (cLimit c) ls + length rest * (cLimit c + 1) < fuel)%nat ->
  match fastLoop fuel c ls rest with
  | Done (c', ls', rest') =>
      exists used set', rest = used ++ rest' /\ Permutation set' (used ++ set) /\
        Inv c' (handL ls') set' /\ shape c c' /\ Forall (laneOK c') ls' /\ length ls' = 8%nat /\
        (length rest' <= 8)%nat
  | Thrown (c', _, _) =>
      exists used rest' lost set', rest = used ++ rest' /\ Permutation set' (used ++ set) /\
        Inv c' lost set' /\ shape c c' /\ stashFull c' /\ (length lost <= 8)%nat
  | _ => False
  end.
Proof.
  induction fuel as [|fuel IH]; intros c ls rest set H3 I F L8 ND V Hm; [lia|].
  cbn [fastLoop]. destruct (Nat.ltb_spec 8 (length rest)) as [Hr|Hr].
  2:{ exists [], set. split_and!; try done. }
  destruct (laneAddrs_ok c ls (inv_wf _ _ _ I) F) as (addrs & -> & F2).
  assert (Inv c (handL ls ++ []) set) as I0 by (by rewrite app_nil_r).
  destruct (laneSwaps_spec ls c addrs [] set I0 F F2) as (bins' & ls' & Hs & I1 & S1 & M1 & T1).
  rewrite Hs. cbn zeta in *.
  set (c1 := mkCuckoo (cParams c) (cLimit c) (cHashes c) bins' (cStash c)) in *.
  pose proof (laneSwaps_length _ _ _ _ _ Hs) as L1.
  pose proof (laneUpdate_spec ls' c1 [] rest set H3 I1 M1 ND V ltac:(lia)) as U.
  destruct (laneUpdate c1 ls' rest) as [[[c2 ls2] rest2]|[[c2 ls2] rest2]| |]; try done.
  - destruct U as (used & set' & -> & P & I2 & S2 & F3 & L3 & M3).
    rewrite app_nil_r in I2. pose proof S2 as (Hp2 & Hlim2 & Hlh2 & _).
    change (cParams c1) with (cParams c) in Hp2. change (cLimit c1) with (cLimit c) in *.
    assert (NoDup (set'.*1 ++ rest2.*1)) as ND2.
    { rewrite P, fmap_app. rewrite fmap_app in ND.
      eapply NoDup_perm; [|exact ND]. permN. }
    assert (Forall (validIdx c2) rest2.*1) as V2.
    { rewrite fmap_app in V. apply Forall_app in V as [_ V].
      eapply Forall_impl; [exact V|]. intros x Hx. eapply shape_valid; [exact S2|exact Hx]. }
    rewrite (tries_ext _ _ _ T1) in M3.
    assert (pNumHashes (cParams c2) = 3) as H32 by (by rewrite Hp2).
    specialize (IH c2 ls2 rest2 set' H32 I2 F3 ltac:(congruence) ND2 V2 ltac:(rewrite Hlim2; lia)).
    assert (shape c c2) as S02 by exact S2.
    destruct (fastLoop fuel c2 ls2 rest2) as [[[c3 ls3] rest3]|[[c3 ls3] rest3]| |]; try done.
    + destruct IH as (used' & set'' & -> & P' & I3 & S3 & F4 & L4 & R4).
      exists (used ++ used'), set''. rewrite <- app_assoc. split; [done|].
      split; [rewrite P', P; permN|]. split; [done|]. split; [exact (shape_trans _ _ _ S02 S3)|]. done.
    + destruct IH as (used' & rest' & lost & set'' & -> & P' & I3 & S3 & F4 & L4).
      exists (used ++ used'), rest', lost, set''. rewrite <- app_assoc. split; [done|].
      split; [rewrite P', P; permN|]. split; [done|]. split; [exact (shape_trans _ _ _ S02 S3)|]. done.
  - destruct U as (used & rest' & lost & set' & -> & P & I2 & S2 & F3 & L3).
    exists used, rest', lost, set'. split; [done|]. split; [done|]. split; [done|]. split; [exact S2|].
    split; [done|]. simpl in L3. lia.
Qed.

Lemma finishLanes_spec ls : forall c extra set,
  Inv c (handL ls ++ extra) set -> Forall (laneOK c) ls ->
  match finishLanes c ls with
  | Done c' => Inv c' extra set /\ shape c c'
  | Thrown c' => exists x pend, Inv c' (x :: pend ++ extra) set /\ shape c c' /\ stashFull c' /\
      pend ⊆ handL ls /\ (S (length pend) <= length ls)%nat
  | _ => False
  end.
Proof.
  induction ls as [|[[i hi] t] ls IH]; intros c extra set I F; cbn [finishLanes]; [done|].
  apply Forall_cons in F as [((Hi & Hl) & Hh & Ht) F'].
  destruct (N.eqb_spec i nullIdx) as [->|_]; [lia|].
  rewrite handL_ok in * by done.
  pose proof (insertOne_spec c i hi t (inv_wf _ _ _ I) Hi Hl Hh Ht) as O.
  destruct (insertOne c i hi t) as [c1|c1| |]; try done; cbn [andThen obind].
  - destruct O as (W1 & S1 & P1).
    assert (Inv c1 (handL ls ++ extra) set) as I1.
    { eapply Inv_same; [exact S1|exact W1| |exact I]. rewrite P1. permN. }
    specialize (IH c1 extra set I1 (Forall_laneOK_shape _ _ _ (same_shape _ _ S1) F')).
    unfold andThen, obind.
    destruct (finishLanes c1 ls) as [c2|c2| |]; try done.
    + destruct IH as [I2 S2]. split; [done|]. exact (shape_trans _ _ _ (same_shape _ _ S1) S2).
    + destruct IH as (x & pend & I2 & S2 & F2 & Hsub & Hlen). exists x, pend.
      split; [done|]. split; [exact (shape_trans _ _ _ (same_shape _ _ S1) S2)|]. split; [done|].
      split; [|simpl; lia]. intros y Hy. apply elem_of_cons. right. by apply Hsub.
  - destruct O as (W1 & S1 & F1 & lost & P1).
    exists lost, (handL ls). split.
    { eapply Inv_same; [exact S1|exact W1| |exact I]. permN. }
    split; [by apply same_shape|]. split; [done|]. split.
    + intros y Hy. apply elem_of_cons. by right.
    + pose proof (handL_length ls). simpl. lia.
Qed.

Lemma insertRest_spec rest : forall c set,
  Inv c [] set -> NoDup (set.*1 ++ rest.*1) -> Forall (validIdx c) (rest.*1) ->
  match insertRest c rest with
  | Done c' => exists set', Permutation set' (rest ++ set) /\ Inv c' [] set' /\ shape c c'
  | Thrown c' => exists used rest' x set', rest = used ++ rest' /\ Permutation set' (used ++ set) /\
      Inv c' [x] set' /\ shape c c' /\ stashFull c'
  | _ => False
  end.
Proof.
  induction rest as [|[i h] rest IH]; intros c set I ND V; cbn [insertRest].
  - exists set. done.
  - destruct (take_item c [] set i h rest I ND V) as (c1 & -> & I1 & S1 & ND1 & V1 & Vi).
    pose proof (inv_wf _ _ _ I1) as W1.
    pose proof (insertOne_spec c1 i 0 O W1 (proj1 Vi) (proj2 Vi) (wf_h0 _ W1) ltac:(lia)) as O1.
    destruct (insertOne c1 i 0 0%nat) as [c2|c2| |]; try done; unfold andThen, obind.
    + destruct O1 as (W2 & S2 & P2). pose proof (same_shape _ _ S2) as S2'.
      pose proof (shape_trans _ _ _ S1 S2') as S02.
      assert (Inv c2 [] ((i, h) :: set)) as I2.
      { eapply Inv_same; [exact S2|exact W2| |exact I1]. rewrite P2. permN. }
      specialize (IH c2 ((i, h) :: set) I2 ND1 ltac:(eapply Forall_impl; [exact V1|]; intros x Hx; eapply shape_valid; [exact S2'|exact Hx])).
      destruct (insertRest c2 rest) as [c3|c3| |]; try done.
      * destruct IH as (set' & P & I3 & S3). exists set'. split; [rewrite P; permN|]. split; [done|].
        exact (shape_trans _ _ _ S02 S3).
      * destruct IH as (used & rest' & x & set' & -> & P & I3 & S3 & F3).
        exists ((i, h) :: used), rest', x, set'. split; [done|]. split; [rewrite P; permN|].
        split; [done|]. split; [exact (shape_trans _ _ _ S02 S3)|done].
    + destruct O1 as (W2 & S2 & F2 & lost & P2).
      exists [(i, h)], rest, lost, ((i, h) :: set). split; [done|]. split; [done|]. split.
      { eapply Inv_same; [exact S2|exact W2| |exact I1]. permN. }
      split; [|done]. exact (shape_trans _ _ _ S1 (same_shape _ _ S2)).
Qed.

Lemma handL_idx ls : Forall (fun l => laneIdx l ≠ nullIdx) ls -> handL ls = laneIdx <$> ls.
Proof.
  induction ls as [|[[i hi] t] ls IH]; intros F; [done|]. apply Forall_cons in F as [H1 F].
  rewrite handL_cons, fmap_cons, IH by done. destruct (decide _); done.
Qed.

Lemma tries_bound lim ls : (tries lim ls <= length ls * lim)%nat.
Proof. induction ls as [|[[i hi] t] ls IH]; [done|]. rewrite tries_cons. simpl. lia. Qed.

Lemma insertBatch_spec c items set :
  Inv c [] set -> NoDup (set.*1 ++ items.*1) -> Forall (validIdx c) (items.*1) ->
  match insertBatch c items with
  | Done c' => exists set', Permutation set' (items ++ set) /\ Inv c' [] set' /\ shape c c'
  | Thrown c' => exists done_ rest hand set', Permutation items (done_ ++ rest) /\ Permutation set' (done_ ++ set) /\
      Inv c' hand set' /\ shape c c' /\ stashFull c' /\ (length hand <= 8)%nat /\
      ((length items <= 16)%nat \/ pNumHashes (cParams c) ≠ 3 ->
        exists x pend, hand = x :: pend /\ pend ⊆ items.*1)
  | _ => False
  end.
Proof.
  intros I ND V. unfold insertBatch.
  set (fst8 := take 8 items). set (rest := drop 8 items).
  assert (items = fst8 ++ rest) as Eit by (symmetry; apply take_drop).
  assert (NoDup (set.*1 ++ fst8.*1)) as ND1.
  { rewrite Eit, fmap_app, app_assoc in ND. by apply NoDup_app in ND as (? & _). }
  assert (Forall (validIdx c) fst8.*1 /\ Forall (validIdx c) rest.*1) as [V1 V2].
  { rewrite Eit, fmap_app in V. by apply Forall_app in V. }
  destruct (fillLanes_spec fst8 c [] set I ND1 V1) as (c1 & ls & set1 & -> & I1 & P1 & S1 & L1 & Len1 & Ix1).
  specialize (L1 (wf_h0 _ (inv_wf _ _ _ I))).
  rewrite app_nil_r in I1.
  assert (NoDup (set1.*1 ++ rest.*1)) as ND2.
  { rewrite P1, fmap_app. rewrite Eit, fmap_app in ND.
    eapply NoDup_perm; [|exact ND]. permN. }
  assert (Forall (validIdx c1) rest.*1) as V3.
  { eapply Forall_impl; [exact V2|]. intros x. by apply shape_valid. }
  pose proof S1 as (Hp1 & Hlim1 & Hlh1 & _).
  (* after the fast loop *)
  set (r := if (8 <? length items)%nat && (pNumHashes (cParams c) =? 3)
            then fastLoop (fastFuel c1 (length items)) c1 ls rest else Done (c1, ls, rest)).
  assert (match r with
    | Done (c2, ls2, rest2) =>
      exists used set2, rest = used ++ rest2 /\ Permutation set2 (used ++ set1) /\
        Inv c2 (handL ls2) set2 /\ shape c1 c2 /\ Forall (laneOK c2) ls2 /\ (length ls2 <= 8)%nat /\
        ((length items <= 16)%nat \/ pNumHashes (cParams c) ≠ 3 -> handL ls2 = fst8.*1)
    | Thrown (c2, _, _) =>
      exists used rest' lost set2, rest = used ++ rest' /\ Permutation set2 (used ++ set1) /\
        Inv c2 lost set2 /\ shape c1 c2 /\ stashFull c2 /\ (length lost <= 8)%nat /\
        (¬ ((length items <= 16)%nat \/ pNumHashes (cParams c) ≠ 3))
    | _ => False
    end) as R.
  { assert (handL ls = fst8.*1) as Hhand.
    { rewrite handL_idx, Ix1; [done|]. eapply Forall_impl; [exact L1|].
      intros [[i hi] t] ((? & _) & _). unfold laneIdx. simpl. lia. }
    assert (length fst8 <= 8)%nat as Hf8 by (unfold fst8; rewrite take_length; lia).
    unfold r. destruct ((8 <? length items)%nat && (pNumHashes (cParams c) =? 3)) eqn:Ec.
    2:{ exists [], set1. split; [done|]. split; [done|]. split; [done|]. split; [done|]. split; [done|].
        split; [lia|]. done. }
    apply andb_true_iff in Ec as [E1 E2]. apply Nat.ltb_lt in E1. apply N.eqb_eq in E2.
    assert (length ls = 8%nat) as L8 by (rewrite Len1; unfold fst8; rewrite take_length; lia).
    assert (length rest = length items - 8)%nat as Lr by (unfold rest; apply drop_length).
    pose proof (tries_bound (cLimit c1) ls) as TB. rewrite L8 in TB.
    assert (pNumHashes (cParams c1) = 3) as H31 by congruence.
    destruct (decide (length items <= 16)%nat) as [H16|H16].
    { assert (fastLoop (fastFuel c1 (length items)) c1 ls rest = Done (c1, ls, rest)) as ->.
      { unfold fastFuel. cbn [fastLoop]. destruct (Nat.ltb_spec 8 (length rest)); [lia|done]. }
      exists [], set1. split; [done|]. split; [done|]. split; [done|]. split; [done|]. split; [done|].
      split; [lia|]. done. }
    pose proof (fastLoop_spec (fastFuel c1 (length items)) c1 ls rest set1 H31 I1 L1 L8 ND2 V3) as FL.
    specialize (FL ltac:(unfold fastFuel; nia)).
    destruct (fastLoop _ c1 ls rest) as [[[c2 ls2] rest2]|[[c2 ls2] rest2]| |]; try done.
    - destruct FL as (used & set2 & ? & ? & ? & ? & ? & ? & ?). exists used, set2.
      split_and!; try done; [lia|]. intros [?|?]; [lia|congruence].
    - destruct FL as (used & rest' & lost & set2 & ? & ? & ? & ? & ? & ?).
      exists used, rest', lost, set2. split_and!; try done. intros [?|?]; [lia|congruence]. }
  clearbody r. destruct r as [[[c2 ls2] rest2]|[[c2 ls2] rest2]| |]; try done.
  - destruct R as (used & set2 & Er & P2 & I2 & S2 & L2 & Len2 & Hh2).
    pose proof (shape_trans _ _ _ S1 S2) as S02.
    assert (Inv c2 (handL ls2 ++ []) set2) as I2' by (by rewrite app_nil_r).
    pose proof (finishLanes_spec ls2 c2 [] set2 I2' L2) as FL.
    destruct (finishLanes c2 ls2) as [c3|c3| |]; try done; unfold andThen, obind.
    + destruct FL as [I3 S3]. pose proof (shape_trans _ _ _ S02 S3) as S03.
      assert (NoDup (set2.*1 ++ rest2.*1)) as ND3.
      { rewrite P2, fmap_app. rewrite Er, fmap_app in ND2.
        eapply NoDup_perm; [|exact ND2]. permN. }
      assert (Forall (validIdx c3) rest2.*1) as V4.
      { rewrite Er, fmap_app in V2. apply Forall_app in V2 as [_ V2].
        eapply Forall_impl; [exact V2|]. intros x Hx. eapply shape_valid; [exact S03|exact Hx]. }
      pose proof (insertRest_spec rest2 c3 set2 I3 ND3 V4) as IR.
      destruct (insertRest c3 rest2) as [c4|c4| |]; try done.
      * destruct IR as (set' & P4 & I4 & S4). exists set'. split; [|split; [done|exact (shape_trans _ _ _ S03 S4)]].
        rewrite P4, P2, P1, Eit, Er. permN.
      * destruct IR as (used' & rest' & x & set' & -> & P4 & I4 & S4 & F4).
        exists (fst8 ++ used ++ used'), rest', [x], set'.
        split; [rewrite Eit, Er; permN|]. split; [rewrite P4, P2, P1; permN|].
        split; [done|]. split; [exact (shape_trans _ _ _ S03 S4)|]. split; [done|].
        split; [simpl; lia|]. intros _. exists x, []. split; [done|]. intros y Hy. by apply elem_of_nil in Hy.
    + destruct FL as (x & pend & I3 & S3 & F3 & Hsub & Hlen).
      exists (fst8 ++ used), rest2, (x :: pend), set2.
      split; [rewrite Eit, Er; permN|]. split; [rewrite P2, P1; permN|].
      split; [by rewrite app_nil_r in I3|]. split; [exact (shape_trans _ _ _ S02 S3)|]. split; [done|].
      split; [simpl; lia|]. intros Hc. exists x, pend. split; [done|].
      intros y Hy. apply Hsub in Hy. rewrite (Hh2 Hc) in Hy.
      rewrite Eit, fmap_app. apply elem_of_app. by left.
  - destruct R as (used & rest' & lost & set2 & Er & P2 & I2 & S2 & F2 & Len2 & Hn).
    exists (fst8 ++ used), rest', lost, set2.
    split; [rewrite Eit, Er; permN|]. split; [rewrite P2, P1; permN|].
    split; [done|]. split; [exact (shape_trans _ _ _ S1 S2)|]. done.
Qed.

(** ** Sequences of batches *)

Lemma insertBatches_spec bs : forall c set,
  Inv c [] set -> NoDup (set.*1 ++ (concat bs).*1) -> Forall (validIdx c) ((concat bs).*1) ->
  match insertBatches c bs with
  | Done c' => exists set', Permutation set' (concat bs ++ set) /\ Inv c' [] set' /\ shape c c'
  | Thrown c' => exists bs1 b bs2 done_ rest hand set',
      bs = bs1 ++ b :: bs2 /\ Permutation b (done_ ++ rest) /\ 
      Permutation set' (done_ ++ concat bs1 ++ set) /\
      Inv c' hand set' /\ shape c c' /\ stashFull c' /\ (length hand <= 8)%nat /\
      ((length b <= 16)%nat \/ pNumHashes (cParams c) ≠ 3 ->
        exists x pend, hand = x :: pend /\ pend ⊆ b.*1)
  | _ => False
  end.
Proof.
  induction bs as [|b bs IH]; intros c set I ND V; cbn [insertBatches].
  - exists set. done.
  - cbn [concat] in *. rewrite fmap_app in ND, V. apply Forall_app in V as [V1 V2].
    assert (NoDup (set.*1 ++ b.*1)) as ND1.
    { rewrite app_assoc in ND. by apply NoDup_app in ND as (? & _). }
    pose proof (insertBatch_spec c b set I ND1 V1) as B.
    destruct (insertBatch c b) as [c1|c1| |]; try done; unfold andThen, obind.
    + destruct B as (set1 & P1 & I1 & S1). 
      assert (NoDup (set1.*1 ++ (concat bs).*1)) as ND2.
      { rewrite P1, fmap_app. eapply NoDup_perm; [|exact ND]. permN. }
      specialize (IH c1 set1 I1 ND2 ltac:(eapply Forall_impl; [exact V2|]; intros x; by apply shape_valid)).
      destruct (insertBatches c1 bs) as [c2|c2| |]; try done.
      * destruct IH as (set2 & P2 & I2 & S2). exists set2. split; [rewrite P2, P1; permN|].
        split; [done|]. exact (shape_trans _ _ _ S1 S2).
      * destruct IH as (bs1 & b' & bs2 & done_ & rest & hand & set' & -> & P2 & P3 & I2 & S2 & F2 & L2 & X2).
        exists (b :: bs1), b', bs2, done_, rest, hand, set'. split; [done|]. split; [done|].
        split; [rewrite P3, P1; simpl; permN|]. split; [done|]. split; [exact (shape_trans _ _ _ S1 S2)|].
        split; [done|]. split; [done|]. destruct S1 as (<- & _). done.
    + destruct B as (done_ & rest & hand & set' & P1 & P2 & I1 & S1 & F1 & L1 & X1).
      exists [], b, bs, done_, rest, hand, set'. simpl. done.
Qed.

Lemma init_Inv p lim c0 : 0 < pNumBins p -> 1 <= pNumHashes p <= 3 ->
  init p (constructed lim) = Done c0 ->
  Inv c0 [] [] /\ cParams c0 = p /\ cLimit c0 = lim /\ length (cHashes c0) = pN p /\
  length (cStash c0) = pStashSize p.
Proof.
  intros Hb Hh. unfold init, constructed. destruct (N.ltb_spec 3 (pNumHashes p)); [lia|].
  intros [= <-]. simpl. rewrite !resize_nil, !replicate_length.
  split; [|done]. constructor; simpl.
  - constructor; simpl; try lia.
    + rewrite replicate_length. lia.
    + intros a w Hw. apply lookup_replicate in Hw as [-> _]. by left.
    + exists [], (pStashSize p). split; [done|constructor].
  - unfold stored. simpl.
    assert (forall k, occ (replicate k emptyWord) = []) as E by (induction k; done).
    by rewrite !E.
  - constructor.
  - intros i h Hx. by apply elem_of_nil in Hx.
Qed.

(** ** Lookup *)

Definition hits (c : Cuckoo) (q w : N) : Prop :=
  isEmpty w = false /\ cHashes c !! N.to_nat (wordIdx w) = Some q.

Lemma wordMatches_good c w q : WF c -> (w = emptyWord \/ goodWord c w) ->
  exists b, wordMatches (cHashes c) w q = Some b /\ (b = true <-> hits c q w).
Proof.
  intros W [->|G]; unfold wordMatches, hits.
  - rewrite isEmpty_emptyWord. exists false. naive_solver.
  - destruct (goodWord_facts c w (wf_h3 _ W) G) as (-> & _ & Hl & _).
    destruct (lookup_lt_is_Some_2 _ _ Hl) as [h Hh].
    rewrite (proj2 (readN_Some _ _ h) Hh). exists (h =? q). split; [done|].
    rewrite N.eqb_eq, Hh. naive_solver.
Qed.

Lemma findStash_spec c q k : WF c -> forall ws pos,
  Forall (goodWord c) ws ->
  exists r, findStash (cHashes c) (ws ++ replicate k emptyWord) q pos = Some r /\
  match r with
  | Some (idx, p) => exists n w, p = pos + N.of_nat n /\ (ws ++ replicate k emptyWord) !! n = Some w /\
       hits c q w /\ idx = wordIdx w
  | None => Forall (fun w => ¬ hits c q w) ws
  end.
Proof.
  intros W. induction ws as [|w ws IH]; intros pos F; cbn [app findStash].
  - exists None. split; [|constructor]. by destruct k.
  - apply Forall_cons in F as [G F].
    destruct (goodWord_facts c w (wf_h3 _ W) G) as (-> & _).
    destruct (wordMatches_good c w q W (or_intror G)) as (b & -> & Hb).
    destruct b.
    + eexists. split; [done|]. simpl. exists O, w. split; [lia|]. naive_solver.
    + destruct (IH (pos + 1) F) as (r & -> & Hr). exists r. split; [done|].
      destruct r as [[idx p]|].
      * destruct Hr as (n & w' & -> & ? & ? & ?). exists (S n), w'. split; [lia|]. done.
      * constructor; [naive_solver|done].
Qed.

Lemma findHashes_spec c q n : WF c -> forall i,
  i + N.of_nat n <= pNumHashes (cParams c) ->
  exists r, findHashes c q i n = Some r /\
  match r with
  | Some (idx, p) => exists w, (cBins c ++ cStash c) !! N.to_nat p = Some w /\ hits c q w /\ idx = wordIdx w
  | None => Forall (fun w => ¬ hits c q w) (cStash c) /\
     forall k a w, i <= k < i + N.of_nat n -> getHash q k (pNumBins (cParams c)) = Some a ->
       cBins c !! N.to_nat a = Some w -> ¬ hits c q w
  end.
Proof.
  intros W. induction n as [|n IH]; intros i Hi; cbn [findHashes].
  - destruct (wf_stash _ W) as (ws & k & Es & F). rewrite Es.
    destruct (findStash_spec c q k W ws (N.of_nat (length (cBins c))) F) as (r & -> & Hr).
    exists r. split; [done|]. destruct r as [[idx p]|].
    + destruct Hr as (m & w & -> & Hm & Hh & ->). exists w. split; [|done].
      rewrite lookup_app_r by lia. rewrite <- Hm. f_equal. lia.
    + split; [|intros; lia]. apply Forall_app. split; [done|].
      apply Forall_replicate. intros [E _]. done.
  - unfold getHash at 1. pose proof (wf_pos _ W). pose proof (wf_h3 _ W). pose proof (wf_len _ W) as Wl.
    destruct (N.eqb_spec (pNumBins (cParams c)) 0); [lia|].
    destruct (N.ltb_spec 4 i); [lia|]. cbn [orb].
    destruct (Nat.eqb_spec (length (cBins c)) 0); [lia|].
    set (a0 := (N.shiftr q (16 * i) mod two64) mod pNumBins (cParams c)).
    assert (a0 < pNumBins (cParams c)) as Ha0 by (apply N.mod_lt; lia).
    rewrite (N.mod_small a0) by lia.
    destruct (lookup_lt_is_Some_2 (cBins c) (N.to_nat a0)) as [w Hw]; [lia|].
    rewrite (proj2 (readN_Some _ _ w) Hw).
    destruct (wordMatches_good c w q W) as (b & -> & Hb).
    { destruct (wf_bins _ W _ _ Hw) as [?|[? _]]; auto. }
    destruct b.
    + eexists. split; [done|]. simpl. exists w. split; [|naive_solver].
      rewrite lookup_app_l by lia. done.
    + destruct (IH (i + 1)) as (r & -> & Hr); [lia|]. exists r. split; [done|].
      destruct r as [[idx p]|]; [done|]. destruct Hr as [Hr1 Hr2]. split; [done|].
      intros k a w' Hk Hg Hw'. destruct (decide (k = i)) as [->|Hne].
      * unfold getHash in Hg. destruct (N.eqb_spec (pNumBins (cParams c)) 0); [lia|].
        destruct (N.ltb_spec 4 i); [lia|]. cbn [orb] in Hg. injection Hg as <-.
        fold a0 in Hw'. assert (w' = w) as -> by congruence. naive_solver.
      * eapply Hr2; eauto. lia.
Qed.

Lemma find_as_loop c q : WF c ->
  find c q = findHashes c q 0 (N.to_nat (pNumHashes (cParams c))).
Proof.
  intros W. unfold find. destruct (N.eqb_spec (pNumHashes (cParams c)) 2) as [E|]; [|done].
  rewrite E. change (N.to_nat 2) with 2%nat. cbn [findHashes]. change (0 + 1) with 1.
  pose proof (wf_pos _ W). pose proof (wf_len _ W) as Wl.
  unfold getHash. destruct (N.eqb_spec (pNumBins (cParams c)) 0); [lia|].
  change (4 <? 0) with false. change (4 <? 1) with false. cbn [orb].
  destruct (Nat.eqb_spec (length (cBins c)) 0); [lia|].
  set (a0 := (N.shiftr q (16 * 0) mod two64) mod pNumBins (cParams c)).
  set (a1 := (N.shiftr q (16 * 1) mod two64) mod pNumBins (cParams c)).
  assert (a0 < pNumBins (cParams c)) as Ha0 by (apply N.mod_lt; lia).
  assert (a1 < pNumBins (cParams c)) as Ha1 by (apply N.mod_lt; lia).
  rewrite (N.mod_small a0), (N.mod_small a1) by lia.
  destruct (lookup_lt_is_Some_2 (cBins c) (N.to_nat a0)) as [w0 Hw0]; [lia|].
  destruct (lookup_lt_is_Some_2 (cBins c) (N.to_nat a1)) as [w1 Hw1]; [lia|].
  rewrite (proj2 (readN_Some _ _ w0) Hw0), (proj2 (readN_Some _ _ w1) Hw1). done.
Qed.

Lemma find_spec c q set : Inv c [] set ->
  exists r, find c q = Some r /\
  match r with
  | Some (idx, p) => (idx, q) ∈ set /\ exists w, (cBins c ++ cStash c) !! N.to_nat p = Some w /\
        isEmpty w = false /\ wordIdx w = idx
  | None => forall i, (i, q) ∉ set
  end.
Proof.
  intros I. pose proof (inv_wf _ _ _ I) as W. rewrite (find_as_loop c q W).
  destruct (findHashes_spec c q (N.to_nat (pNumHashes (cParams c))) W 0) as (r & -> & Hr); [lia|].
  exists r. split; [done|].
  assert (forall i, i ∈ stored c -> exists h, (i, h) ∈ set) as Hset.
  { intros i Hi. assert (i ∈ set.*1) as Hx.
    { rewrite <- (inv_perm _ _ _ I), app_nil_r. done. }
    apply elem_of_list_fmap in Hx as ([i' h] & -> & ?). by exists h. }
  destruct r as [[idx p]|].
  - destruct Hr as (w & Hw & [He Hh] & ->). split; [|by exists w].
    assert (wordIdx w ∈ stored c) as Hs.
    { unfold stored. rewrite <- occ_app. by eapply occ_in. }
    destruct (Hset _ Hs) as [h Hin]. destruct (inv_hash _ _ _ I _ _ Hin) as [_ Hh'].
    rewrite Hh in Hh'. by injection Hh' as <-.
  - destruct Hr as [Hr1 Hr2]. intros i Hin.
    assert (i ∈ stored c) as Hs.
    { assert (i ∈ set.*1) by (apply elem_of_list_fmap; by exists (i, q)).
      rewrite <- (inv_perm _ _ _ I), app_nil_r in H. done. }
    destruct (inv_hash _ _ _ I _ _ Hin) as [_ Hhash].
    unfold stored in Hs. apply elem_of_app in Hs as [Hs|Hs];
      apply elem_of_list_omap in Hs as (w & Hw & Ew); destruct (isEmpty w) eqn:He; try done;
      injection Ew as <-.
    + apply elem_of_list_lookup in Hw as [a Ha].
      destruct (wf_bins _ W _ _ Ha) as [->|[G E]]; [done|].
      destruct (goodWord_facts c w (wf_h3 _ W) G) as (_ & _ & _ & Hh & _).
      unfold getHashOf in E. rewrite (proj2 (readN_Some _ _ q) Hhash) in E.
      eapply (Hr2 (wordHash w) _ w); [lia|exact E|by rewrite Nat2N.id|]. done.
    + rewrite Forall_forall in Hr1. by apply (Hr1 w Hw).
Qed.

(** ** Statements in specification vocabulary *)
From Verif Require Import CuckooIndex_Spec.

Lemma entryOf_occ v : (omap entryOf v).*1 = occ v.
Proof.
  induction v as [|w v IH]; [done|]. rewrite occ_cons, <- IH.
  change (omap entryOf (w :: v)) with
    (match entryOf w with Some x => x :: omap entryOf v | None => omap entryOf v end).
  unfold entryOf at 1, occW, isEmpty.
  destruct (decide (w = 2 ^ 64 - 1)) as [->|Hn].
  - rewrite emptyWord_val, N.eqb_refl. done.
  - rewrite emptyWord_val. destruct (N.eqb_spec w (2 ^ 64 - 1)); [done|].
    rewrite fmap_cons, wordIdx_mod. done.
Qed.

Lemma storedIndices_stored c : storedIndices c = stored c.
Proof. unfold storedIndices, stored. rewrite <- occ_app. apply entryOf_occ. Qed.

Lemma times_perm l1 l2 x : Permutation l1 l2 -> times l1 x = times l2 x.
Proof. intros P. unfold times. by rewrite P. Qed.
Lemma times_nodup l x : NoDup l -> times l x = if decide (x ∈ l) then 1%nat else 0%nat.
Proof.
  unfold times. induction l as [|y l IH]; intros ND; [done|].
  apply NoDup_cons in ND as [Hn ND]. specialize (IH ND). rewrite filter_cons.
  destruct (decide (y = x)) as [->|Hne].
  - rewrite decide_True by (by constructor). simpl. rewrite IH, decide_False by done. done.
  - rewrite IH. destruct (decide (x ∈ l)) as [Hx|Hx].
    + by rewrite decide_True by (by constructor).
    + rewrite decide_False; [done|]. intros Hc. apply elem_of_cons in Hc as [?|?]; [congruence|done].
Qed.

Lemma legal_valid p lim c0 items : length (cHashes c0) = pN p -> legalItems p items ->
  cLimit c0 = lim -> Forall (validIdx c0) (items.*1).
Proof.
  intros Hl [_ F] _. eapply Forall_impl; [exact F|]. intros i [? ?]. unfold validIdx.
  rewrite Hl, nullIdx_val. lia.
Qed.

Lemma insertBatches_legal p lim c0 batches :
  legalParams p -> init p (constructed lim) = Done c0 -> legalItems p (concat batches) ->
  match insertBatches c0 batches with
  | Done c => exists set, Permutation set (concat batches) /\ Inv c [] set /\ shape c0 c /\ cParams c = p
  | Thrown _ => True
  | _ => False
  end.
Proof.
  intros [Hb Hh] Hi L. destruct (init_Inv p lim c0 Hb Hh Hi) as (I & Hp & Hlim & Hl & Hs).
  pose proof (insertBatches_spec batches c0 [] I) as B.
  specialize (B (proj1 L) (legal_valid _ _ _ _ Hl L Hlim)).
  destruct (insertBatches c0 batches) as [c|c| |]; try done.
  destruct B as (set & P & I' & S). exists set. rewrite app_nil_r in P.
  split; [done|]. split; [done|]. split; [done|]. destruct S as (-> & _). done.
Qed.

Lemma Inv_spec p c set items : Inv c [] set -> Permutation set items -> cParams c = p ->
  (forall i, times (storedIndices c) i = if decide (i ∈ items.*1) then 1%nat else 0%nat) /\
  (forall a w i j, cBins c !! a = Some w -> entryOf w = Some (i, j) ->
     exists h, (i, h) ∈ items /\ j < pNumHashes p /\ mapsTo (pNumBins p) h j (N.of_nat a)).
Proof.
  intros I P Hp. apply (Inv_set _ _ _ _ P) in I. pose proof I as [W Pm ND Hh]. split.
  - intros i. rewrite storedIndices_stored, <- (times_nodup _ _ ND). apply times_perm.
    by rewrite <- Pm, app_nil_r.
  - intros a w i j Ha He. destruct (wf_bins _ W _ _ Ha) as [->|[G E]].
    { unfold entryOf in He. by rewrite decide_True in He by done. }
    destruct (goodWord_facts c w (wf_h3 _ W) G) as (Hne & Hi & Hl & Hj & _).
    assert (wordIdx w ∈ items.*1) as Hin.
    { rewrite <- Pm, app_nil_r. apply elem_of_app. left. by eapply occ_in. }
    unfold entryOf in He. destruct (decide _) as [|_]; [done|].
    rewrite <- wordIdx_mod, <- wordHash_div in He. injection He as <- <-.
    apply elem_of_list_fmap in Hin as ([i h] & Ei & Hin). simpl in Ei. rewrite Ei in *. exists h.
    split; [done|]. rewrite <- Hp. split; [done|].
    destruct (Hh _ _ Hin) as [_ Hlook].
    unfold getHashOf in E. rewrite (proj2 (readN_Some _ _ h) Hlook) in E.
    unfold getHash in E. destruct (_ || _); [done|]. injection E as E.
    unfold mapsTo. rewrite <- E, N.shiftr_div_pow2. done.
Qed.

Lemma cuckoo_no_loss p lim c0 batches c :
  legalParams p -> init p (constructed lim) = Done c0 -> legalItems p (concat batches) ->
  insertBatches c0 batches = Done c ->
  (forall i, times (storedIndices c) i = if decide (i ∈ (concat batches).*1) then 1%nat else 0%nat) /\
  (forall a w i j, cBins c !! a = Some w -> entryOf w = Some (i, j) ->
     exists h, (i, h) ∈ concat batches /\ j < pNumHashes p /\ mapsTo (pNumBins p) h j (N.of_nat a)).
Proof.
  intros Lp Hi L E. pose proof (insertBatches_legal p lim c0 batches Lp Hi L) as B. rewrite E in B.
  destruct B as (set & P & I & S & Hp). by eapply Inv_spec.
Qed.

Lemma cuckoo_insert_defined p lim c0 batches :
  legalParams p -> init p (constructed lim) = Done c0 -> legalItems p (concat batches) ->
  insertBatches c0 batches ≠ UB /\ insertBatches c0 batches ≠ OutOfFuel.
Proof.
  intros Lp Hi L. pose proof (insertBatches_legal p lim c0 batches Lp Hi L) as B.
  destruct (insertBatches c0 batches); done.
Qed.

Lemma cuckoo_find p lim c0 batches c q :
  legalParams p -> init p (constructed lim) = Done c0 -> legalItems p (concat batches) ->
  insertBatches c0 batches = Done c ->
  exists r, find c q = Some r /\
    (forall i pos, r = Some (i, pos) -> (i, q) ∈ concat batches /\
        exists w j, (cBins c ++ cStash c) !! N.to_nat pos = Some w /\ entryOf w = Some (i, j)) /\
    (r = None <-> forall i, (i, q) ∉ concat batches).
Proof.
  intros Lp Hi L E. pose proof (insertBatches_legal p lim c0 batches Lp Hi L) as B. rewrite E in B.
  destruct B as (set & P & I & S & Hp). apply (Inv_set _ _ _ _ P) in I.
  destruct (find_spec c q _ I) as (r & Hr & Hs). exists r. split; [done|]. split.
  - intros i pos ->. destruct Hs as (Hin & w & Hw & He & <-). split; [done|].
    exists w, (wordHash w). split; [done|]. unfold entryOf. unfold isEmpty in He.
    apply N.eqb_neq in He. rewrite emptyWord_val in He. rewrite decide_False by done.
    by rewrite wordIdx_mod, wordHash_div.
  - destruct r as [[i pos]|]; [|done]. split; [done|]. intros Hn. destruct Hs as [Hin _]. by apply Hn in Hin.
Qed.

Lemma cuckoo_overflow p lim c0 batches c b c' :
  legalParams p -> init p (constructed lim) = Done c0 -> legalItems p (concat batches ++ b) ->
  insertBatches c0 batches = Done c -> insertBatch c b = Thrown c' ->
  Forall (fun w => entryOf w ≠ None) (cStash c') /\ length (cStash c') = pStashSize p /\
  (forall i, (times (storedIndices c') i <= 1)%nat) /\
  (forall i, i ∈ storedIndices c' -> i ∈ (concat batches ++ b).*1) /\
  (exists lost, (length lost <= 8)%nat /\
     forall i, i ∈ (concat batches).*1 -> i ∉ storedIndices c' -> i ∈ lost) /\
  ((length b <= 16)%nat \/ pNumHashes p ≠ 3 ->
     exists x, forall i, i ∈ (concat batches).*1 -> i ∉ storedIndices c' -> i = x).
Proof.
  intros Lp Hi L E Et. pose proof L as [ND V].
  assert (legalItems p (concat batches)) as L1.
  { rewrite fmap_app in ND, V. split; [by apply NoDup_app in ND as (? & _)|by apply Forall_app in V as [? _]]. }
  pose proof (insertBatches_legal p lim c0 batches Lp Hi L1) as B. rewrite E in B.
  destruct B as (set & P & I & S & Hp). apply (Inv_set _ _ _ _ P) in I.
  destruct Lp as [Hb Hh]. destruct (init_Inv p lim c0 Hb Hh Hi) as (_ & _ & Hlim & Hl0 & Hs0).
  assert (length (cHashes c) = pN p) as Hl by (destruct S as (_ & _ & -> & _); done).
  pose proof ND as NDf. rewrite fmap_app in NDf.
  pose proof (insertBatch_spec c b _ I NDf) as T. rewrite Et in T.
  destruct T as (done_ & rest & hand & set' & Pb & Ps & I' & S' & F & Lh & X).
  { pose proof (legal_valid p lim c _ Hl L) as Vf. rewrite fmap_app in Vf.
    destruct S as (_ & Hlm & _ & _). rewrite Hlm in Vf. apply Forall_app in Vf as [_ Vf]; done. }
  assert (Permutation (stored c' ++ hand ++ rest.*1) ((concat batches ++ b).*1)) as Pall.
  { rewrite app_assoc, (inv_perm _ _ _ I'), Ps, !fmap_app, Pb, fmap_app. permN. }
  assert (NoDup (stored c' ++ hand ++ rest.*1)) as NDall by (eapply NoDup_perm; [symmetry; exact Pall|exact ND]).
  assert (NoDup (stored c')) as NDs by (by apply NoDup_app in NDall as (? & _)).
  rewrite storedIndices_stored.
  assert (forall i, i ∈ (concat batches).*1 -> i ∉ stored c' -> i ∈ hand /\ i ∉ b.*1) as Hmiss.
  { intros i Hin Hn.
    assert (i ∉ b.*1) as Hnb.
    { apply NoDup_app in NDf as (_ & Hd & _). by apply Hd. }
    assert (i ∈ (concat batches ++ b).*1) as Hin2 by (rewrite fmap_app; apply elem_of_app; by left).
    rewrite <- Pall in Hin2. apply elem_of_app in Hin2 as [?|Hin2]; [done|].
    apply elem_of_app in Hin2 as [?|Hin2]; [done|]. exfalso. apply Hnb.
    rewrite Pb, fmap_app. apply elem_of_app. by right. }
  split_and!.
  - eapply Forall_impl; [exact F|]. intros w He. unfold entryOf, isEmpty in *. apply N.eqb_neq in He.
    rewrite emptyWord_val in He. by rewrite decide_False.
  - destruct S as (_ & _ & _ & Hs1), S' as (_ & _ & _ & Hs2). congruence.
  - intros i. rewrite (times_nodup _ _ NDs). destruct (decide _); lia.
  - intros i Hin. rewrite <- Pall. apply elem_of_app. by left.
  - exists hand. split; [done|]. intros i H1 H2. by apply Hmiss.
  - rewrite <- Hp. intros Hc. destruct (X Hc) as (x & pend & -> & Hsub). exists x.
    intros i H1 H2. destruct (Hmiss i H1 H2) as [Hin Hnb].
    apply elem_of_cons in Hin as [->|Hin]; [done|]. apply Hsub in Hin. done.
Qed.

(** The public interface: items with consecutive indices. *)
Lemma chunks16_concat {A} (l : list A) fuel : (length l <= fuel)%nat -> concat (chunks16 fuel l) = l.
Proof.
  revert l. induction fuel as [|f IH]; intros l Hl; [destruct l; [done|simpl in Hl; lia]|].
  destruct l as [|x l]; [done|]. cbn [chunks16 concat]. rewrite IH; [apply take_drop|].
  rewrite drop_length. simpl in *. lia.
Qed.

Lemma insertItems_batches enc c xs start :
  exists bs, insertItems enc c xs start = insertBatches c bs /\
    concat bs = imap (fun i x => (N.of_nat i + start, N.lxor (enc x) x)) xs.
Proof.
  unfold insertItems, insertPrehashed.
  set (items := imap (fun i h => (N.of_nat i + start, h)) (map (fun x => N.lxor (enc x) x) xs)).
  exists (chunks16 (length items) items). split; [done|]. rewrite chunks16_concat by done.
  unfold items. change (map (fun x => N.lxor (enc x) x) xs) with ((fun x => N.lxor (enc x) x) <$> xs).
  rewrite imap_fmap. done.
Qed.

Lemma imap_items_legal p (f : N -> N) xs start :
  start + N.of_nat (length xs) <= N.of_nat (pN p) -> N.of_nat (pN p) < 2 ^ 56 ->
  legalItems p (imap (fun i x => (N.of_nat i + start, f x)) xs).
Proof.
  intros H1 H2.
  assert ((imap (fun i x => (N.of_nat i + start, f x)) xs).*1 = (fun i => N.of_nat i + start) <$> seq 0 (length xs)) as E.
  { apply list_eq. intros i. rewrite !list_lookup_fmap, list_lookup_imap.
    destruct (xs !! i) as [x|] eqn:Hx.
    - rewrite lookup_seq_lt by eauto using lookup_lt_Some. done.
    - rewrite lookup_seq_ge by (by apply lookup_ge_None_1). done. }
  split; rewrite E.
  - apply NoDup_fmap_2; [|apply NoDup_seq]. intros x y. lia.
  - apply Forall_forall. intros i Hi. apply elem_of_list_fmap in Hi as (k & -> & Hk).
    apply elem_of_seq in Hk. lia.
Qed.

Lemma cuckoo_insert_items enc p lim c0 xs c :
  legalParams p -> init p (constructed lim) = Done c0 ->
  (length xs <= pN p)%nat -> N.of_nat (pN p) < 2 ^ 56 ->
  insertItems enc c0 xs 0 = Done c ->
  (forall i, times (storedIndices c) i = if decide (i < N.of_nat (length xs)) then 1%nat else 0%nat) /\
  (forall a w i j, cBins c !! a = Some w -> entryOf w = Some (i, j) ->
     exists x, xs !! N.to_nat i = Some x /\ j < pNumHashes p /\
       mapsTo (pNumBins p) (N.lxor (enc x) x) j (N.of_nat a)).
Proof.
  intros Lp Hi H1 H2 E. destruct (insertItems_batches enc c0 xs 0) as (bs & Eb & Ec).
  rewrite Eb in E.
  pose proof (imap_items_legal p (fun x => N.lxor (enc x) x) xs 0 ltac:(lia) H2) as L.
  assert (legalItems p (concat bs)) as L' by (rewrite Ec; exact L). clear L. rename L' into L. destruct (cuckoo_no_loss p lim c0 bs c Lp Hi L E) as [A B].
  assert (forall i h, (i, h) ∈ concat bs <-> exists x, xs !! N.to_nat i = Some x /\ h = N.lxor (enc x) x) as Hin.
  { intros i h. rewrite Ec. rewrite elem_of_lookup_imap. split.
    - intros (k & x & [= -> ->] & Hx). exists x. split; [|done]. rewrite <- Hx. f_equal. lia.
    - intros (x & Hx & ->). exists (N.to_nat i), x. split; [|done]. f_equal. lia. }
  split.
  - intros i. rewrite A. destruct (decide (i < N.of_nat (length xs))) as [Hlt|Hge].
    + rewrite decide_True; [done|]. destruct (lookup_lt_is_Some_2 xs (N.to_nat i)) as [x Hx]; [lia|].
      apply elem_of_list_fmap. exists (i, N.lxor (enc x) x). split; [done|]. apply Hin. by exists x.
    + rewrite decide_False; [done|]. intros Hx. apply elem_of_list_fmap in Hx as ([i' h] & -> & Hx).
      apply Hin in Hx as (x & Hx & _). apply lookup_lt_Some in Hx. simpl in *. lia.
  - intros a w i j Ha He. destruct (B a w i j Ha He) as (h & Hi' & Hj & Hm).
    apply Hin in Hi' as (x & Hx & ->). by exists x.
Qed.

(** ** Batch lookup *)

Lemma findBatchSteps_same fuel : forall c qs out outRest out',
  findBatchSteps fuel c qs out outRest = Done out' -> out' = out.
Proof.
  induction fuel as [|fuel IH]; intros c qs out outRest out' E; [done|]. cbn [findBatchSteps] in E.
  destruct qs as [|q qs]; [by injection E|].
  destruct (length outRest <? 8)%nat; [done|]. destruct (_ =? 2); [|done].
  destruct (mapM _ _) as [idxs|]; [|done]. destruct (findBatchStash _ _ _ _ _); [|done]. by eapply IH.
Qed.

Lemma packWord_ok idx hashIdx :
  idx < 2 ^ 56 - 1 -> hashIdx < 2 ^ 8 ->
  entryOf (packWord idx hashIdx) = Some (idx, hashIdx) /\
  wordIdx (packWord idx hashIdx) = idx /\ wordHash (packWord idx hashIdx) = hashIdx /\
  isEmpty (packWord idx hashIdx) = false /\ packWord idx hashIdx < 2 ^ 64.
Proof.
  intros H1 H2. change (2 ^ 8) with 256 in H2.
  pose proof (wordIdx_pack idx hashIdx ltac:(lia) H2) as A.
  pose proof (wordHash_pack idx hashIdx ltac:(lia) H2) as B.
  assert (isEmpty (packWord idx hashIdx) = false) as E.
  { apply packWord_not_empty; [rewrite nullIdx_val; done|done]. }
  split_and!; try done.
  - unfold entryOf. unfold isEmpty in E. apply N.eqb_neq in E. rewrite emptyWord_val in E.
    rewrite decide_False by done. by rewrite <- wordIdx_mod, <- wordHash_div, A, B.
  - rewrite packWord_add by (lia || done). change (2 ^ 64) with (256 * 2 ^ 56). nia.
Qed.
