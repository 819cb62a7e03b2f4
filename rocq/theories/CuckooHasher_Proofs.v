(** Proofs about the model of [CuckooHasher]: words, rows and single insertion. *)
From stdpp Require Import sets.
From Verif Require Import Base CuckooHasher_Model CuckooHasher_Spec.
From Verif Require CuckooIndex_Model CuckooIndex_Proofs.
Module CM := CuckooIndex_Model.
Module CP := CuckooIndex_Proofs.

(** ** Words (the layout is the one of the cuckoo index) *)

Lemma binIdx_val i h : i < 2 ^ 56 -> h < 256 -> binIdx (binVal i h) = i.
Proof. exact (CP.wordIdx_pack i h). Qed.
Lemma binHash_val i h : i < 2 ^ 56 -> h < 256 -> binHash (binVal i h) = h.
Proof. exact (CP.wordHash_pack i h). Qed.
Lemma binVal_not_empty i h : i < 2 ^ 56 - 1 -> h < 256 -> binEmpty (binVal i h) = false.
Proof. exact (CP.packWord_not_empty i h). Qed.
Lemma binIdx_mod w : binIdx w = w mod 2 ^ 56.
Proof. exact (CP.wordIdx_mod w). Qed.
Lemma binHash_div w : binHash w = w / 2 ^ 56.
Proof. exact (CP.wordHash_div w). Qed.
Lemma binEmpty_true w : binEmpty w = true <-> w = minus1.
Proof. apply N.eqb_eq. Qed.
Lemma binEmpty_minus1 : binEmpty minus1 = true.
Proof. done. Qed.

Definition occ : list N -> list N := CP.occ.
Definition occW : N -> list N := CP.occW.
Global Arguments occ : simpl never.
Global Arguments occW : simpl never.
Lemma occ_app v1 v2 : occ (v1 ++ v2) = occ v1 ++ occ v2.
Proof. apply CP.occ_app. Qed.
Lemma occ_cons w v : occ (w :: v) = occW w ++ occ v.
Proof. apply CP.occ_cons. Qed.
Lemma occ_nil : occ [] = [].
Proof. done. Qed.
Lemma occ_insert v a w old :
  v !! a = Some old -> Permutation (occ (<[a := w]> v) ++ occW old) (occW w ++ occ v).
Proof. apply CP.occ_insert. Qed.
Lemma occW_empty : occW minus1 = [].
Proof. done. Qed.
Lemma occW_full w : binEmpty w = false -> occW w = [binIdx w].
Proof. intros E. unfold occW, CP.occW. change (CM.isEmpty w) with (binEmpty w). by rewrite E. Qed.
Lemma occ_replicate k : occ (replicate k minus1) = [].
Proof. induction k as [|k IH]; [done|]. simpl replicate. by rewrite occ_cons, IH. Qed.

Lemma slotOf_occ v : (omap slotOf v).*1 = occ v.
Proof.
  induction v as [|w v IH]; [done|]. rewrite occ_cons, <- IH.
  change (omap slotOf (w :: v)) with
    (match slotOf w with Some x => x :: omap slotOf v | None => omap slotOf v end).
  unfold slotOf at 1. destruct (decide (w = 2 ^ 64 - 1)) as [->|Hn]; [done|].
  rewrite occW_full; [|by apply N.eqb_neq]. by rewrite fmap_cons, binIdx_mod.
Qed.

(** ** Rows *)

Lemma copyRow_spec n : forall from src to dst,
  src + N.of_nat n <= N.of_nat (length from) -> dst + N.of_nat n <= N.of_nat (length to) ->
  exists to', copyRow n from src to dst = Some to' /\ length to' = length to /\
    (forall j, (j < n)%nat -> to' !! (N.to_nat dst + j)%nat = from !! (N.to_nat src + j)%nat) /\
    (forall k, (k < N.to_nat dst \/ N.to_nat dst + n <= k)%nat -> to' !! k = to !! k).
Proof.
  induction n as [|n IH]; intros from src to dst Hs Hd; simpl.
  - exists to. split_and!; [done|done|lia|done].
  - destruct (lookup_lt_is_Some_2 from (N.to_nat src)) as [x Hx]; [lia|].
    assert (readN from src = Some x) as -> by by apply readN_Some.
    assert (writeN to dst x = Some (<[N.to_nat dst := x]> to)) as ->
      by (apply writeN_Some; split; [lia|done]).
    destruct (IH from (src + 1) (<[N.to_nat dst := x]> to) (dst + 1)) as (to' & E & L & H1 & H2);
      [lia|rewrite insert_length; lia|].
    exists to'. split; [done|]. split; [by rewrite L, insert_length|]. split.
    + intros j Hj. destruct j as [|j].
      * rewrite H2 by lia. rewrite Nat.add_0_r, list_lookup_insert by lia. by rewrite Nat.add_0_r, Hx.
      * replace (N.to_nat dst + S j)%nat with (N.to_nat (dst + 1) + j)%nat by lia.
        rewrite H1 by lia. f_equal. lia.
    + intros k Hk. rewrite H2 by lia. by rewrite list_lookup_insert_ne by lia.
Qed.

(** ** Well-formed tables *)

Definition valid (n : N) (i : N) : Prop := i < n /\ i < 2 ^ 56 - 1.

Definition goodWord (n num w : N) : Prop :=
  exists i h, w = binVal i h /\ valid n i /\ h < num.

Record Sized (n : N) (c : Hasher) : Prop := {
  sz_rows : N.of_nat (length (hRows c)) = n * hNum c;
  sz_64 : n * hNum c < 2 ^ 64;
  sz_num : 1 <= hNum c <= 256;
  sz_bins : 0 < N.of_nat (length (hBins c)) }.

Record WF (n : N) (c : Hasher) : Prop := {
  wf_sized : Sized n c;
  wf_bins : forall a w, hBins c !! a = Some w -> w = minus1 \/
     (goodWord n (hNum c) w /\ exists x, cell c (binIdx w) (binHash w) = Some x /\
        x mod N.of_nat (length (hBins c)) = N.of_nat a);
  wf_stash : exists ws k, hStash c = ws ++ replicate k minus1 /\ Forall (goodWord n (hNum c)) ws }.

Definition stored (c : Hasher) : list N := occ (hBins c) ++ occ (hStash c).

Lemma storedIn_stored c : storedIn c = stored c.
Proof. unfold storedIn, stored. by rewrite slotOf_occ, occ_app. Qed.

(** Everything but the words. *)
Definition shape (c c' : Hasher) : Prop :=
  hNum c' = hNum c /\ hRows c' = hRows c /\ length (hBins c') = length (hBins c).

Lemma shape_refl c : shape c c.
Proof. done. Qed.
Lemma shape_trans c1 c2 c3 : shape c1 c2 -> shape c2 c3 -> shape c1 c3.
Proof. unfold shape. intros (?&?&?) (?&?&?). split_and!; congruence. Qed.

Lemma goodWord_facts n num w : num <= 256 -> goodWord n num w ->
  binEmpty w = false /\ valid n (binIdx w) /\ binHash w < num /\ w = binVal (binIdx w) (binHash w).
Proof.
  intros Hn (i & h & -> & [V1 V2] & Hh).
  assert (i < 2 ^ 56) by lia. assert (h < 256) by lia.
  rewrite binIdx_val, binHash_val by done.
  split; [by apply binVal_not_empty|]. done.
Qed.

Lemma goodWord_val n num i h : valid n i -> h < num -> goodWord n num (binVal i h).
Proof. intros. by exists i, h. Qed.

Lemma cell_flat n c i j : Sized n c -> i < n -> j < hNum c ->
  cell c i j = hRows c !! (N.to_nat (i * hNum c) + N.to_nat j)%nat /\
  is_Some (cell c i j) /\ (i * hNum c) mod two64 = i * hNum c.
Proof.
  intros [R B [N1 N2] _] Hi Hj. unfold cell.
  assert ((i + 1) * hNum c <= n * hNum c) as L by (apply N.mul_le_mono_r; lia).
  assert (i * hNum c + hNum c <= n * hNum c) as L2 by lia.
  assert (i * hNum c < 2 ^ 64) as L3 by lia.
  unfold two64. rewrite (N.mod_small _ _ L3).
  assert (readN (hRows c) (i * hNum c + j) = hRows c !! (N.to_nat (i * hNum c) + N.to_nat j)%nat) as E.
  { unfold readN. rewrite R. destruct (N.ltb_spec (i * hNum c + j) (n * hNum c)); [|lia].
    f_equal. lia. }
  rewrite E. split; [done|]. split; [|done]. apply lookup_lt_is_Some. lia.
Qed.

Lemma cell_shape c c' i j : hNum c' = hNum c -> hRows c' = hRows c -> cell c' i j = cell c i j.
Proof. unfold cell. by intros -> ->. Qed.

Lemma Sized_shape n c c' : shape c c' -> Sized n c -> Sized n c'.
Proof. intros (E1 & E2 & E3) [R B N1 S]. constructor; rewrite ?E1, ?E2, ?E3; done. Qed.

(** ** One exchange *)

(** [idx] (with hash function [h]) is put in its bin; [r] is what was there. *)
Definition put (c : Hasher) (idx h : N) : option (Hasher * N) :=
  match cell c idx h with
  | None => None
  | Some x =>
      let a := x mod N.of_nat (length (hBins c)) in
      match hBins c !! N.to_nat a with
      | None => None
      | Some old => Some (mkHasher (hNum c) (hRows c) (<[N.to_nat a := binVal idx h]> (hBins c)) (hStash c), old)
      end
  end.

Lemma put_spec n c idx h : WF n c -> valid n idx -> h < hNum c ->
  exists c' old, put c idx h = Some (c', old) /\ WF n c' /\ shape c c' /\ hStash c' = hStash c /\
    Permutation (stored c' ++ occW old) (idx :: stored c) /\
    (old = minus1 \/ goodWord n (hNum c) old).
Proof.
  intros W V Hh. destruct (wf_sized _ _ W) as [R B [N1 N2] S].
  destruct (cell_flat n c idx h (wf_sized _ _ W) (proj1 V) Hh) as (_ & [x Hx] & _).
  unfold put. rewrite Hx. set (nb := N.of_nat (length (hBins c))) in *.
  assert (x mod nb < nb) as Ha by (apply N.mod_lt; lia).
  destruct (lookup_lt_is_Some_2 (hBins c) (N.to_nat (x mod nb))) as [old Ho]; [lia|].
  rewrite Ho. set (c' := mkHasher _ _ _ _).
  assert (shape c c') as Sh by (split_and!; [done|done|apply insert_length]).
  assert (binVal idx h ≠ minus1) as Hne.
  { intros E. apply binEmpty_true in E. rewrite binVal_not_empty in E; [done|apply V|lia]. }
  eexists c', old. split; [done|]. split.
  { constructor; [by eapply Sized_shape, W| |exact (wf_stash _ _ W)].
    intros a w Hw. destruct Sh as (E1 & E2 & E3). rewrite E1, E3.
    destruct (decide (a = N.to_nat (x mod nb))) as [->|Hna].
    - subst c'. simpl in Hw. rewrite list_lookup_insert in Hw by lia. injection Hw as <-.
      right. split; [by apply goodWord_val|]. exists x. destruct V as [V1 V2].
      rewrite binIdx_val, binHash_val by lia. split; [done|]. fold nb. lia.
    - subst c'. simpl in Hw. rewrite list_lookup_insert_ne in Hw by done.
      exact (wf_bins _ _ W a w Hw). }
  split; [done|]. split; [done|]. split.
  - unfold stored. subst c'. cbn [hBins hStash].
    pose proof (occ_insert (hBins c) _ (binVal idx h) old Ho) as P.
    rewrite (occW_full (binVal idx h)) in P by (apply binVal_not_empty; [apply V|lia]).
    rewrite binIdx_val in P by (destruct V; lia). permN.
  - destruct (wf_bins _ _ W _ _ Ho) as [->|[G _]]; [by left|by right].
Qed.

Lemma insertHelper_put left c idx h : 0 < N.of_nat (length (hBins c)) ->
  insertHelper left c idx h =
  match put c idx h with
  | None => UB
  | Some (c', old) =>
      if binEmpty old then Done c'
      else match left with
           | O => match stashShift (hStash c') (binIdx old) (binHash old) with
                  | (st', None) => Done (mkHasher (hNum c') (hRows c') (hBins c') st')
                  | (_, Some _) => UB
                  end
           | S left' => if hNum c =? 0 then UB
                        else insertHelper left' c' (binIdx old) ((binHash old + 1) mod hNum c)
           end
  end.
Proof.
  intros Hb.
  assert ((N.of_nat (length (hBins c)) =? 0) = false) as E by (apply N.eqb_neq; lia).
  assert (forall x, readN (hBins c) (x mod N.of_nat (length (hBins c))) =
     hBins c !! N.to_nat (x mod N.of_nat (length (hBins c)))) as Er.
  { intros x. unfold readN. destruct (N.ltb_spec (x mod N.of_nat (length (hBins c))) (N.of_nat (length (hBins c)))); [done|].
    pose proof (N.mod_lt x (N.of_nat (length (hBins c)))). lia. }
  destruct left; cbn [insertHelper]; unfold put; destruct (cell c idx h); try done;
    rewrite E, Er; destruct (hBins c !! _); try done.
Qed.

(** ** The stash *)

Lemma stashShift_spec n num k : num <= 256 -> forall ws idx h,
  Forall (goodWord n num) ws -> valid n idx -> h < num ->
  exists ws' hand, stashShift (ws ++ replicate k minus1) idx h = (ws' ++ replicate (pred k) minus1, hand) /\
    Forall (goodWord n num) ws' /\
    Permutation (occ ws' ++ (from_option (fun x => [x.1]) [] hand)) (idx :: occ ws) /\
    (hand = None <-> k ≠ 0%nat) /\ (hand ≠ None -> length ws' = length ws).
Proof.
  intros Hn. induction ws as [|w ws IH]; intros idx h F V Hh.
  - destruct k as [|k]; simpl.
    + exists [], (Some (idx, h)). done.
    + exists [binVal idx h], None. split; [done|]. split; [by constructor; [apply goodWord_val|]|].
      split; [|done]. rewrite occ_cons, occW_full by (apply binVal_not_empty; [apply V|lia]).
      rewrite binIdx_val by (destruct V; lia). done.
  - apply Forall_cons in F as [G F]. destruct (goodWord_facts n num w Hn G) as (E & V' & H' & _).
    simpl. rewrite E. destruct (IH (binIdx w) (binHash w) F V' H') as (ws' & hand & -> & F' & P & Q & L).
    exists (binVal idx h :: ws'), hand. split; [done|].
    split; [by constructor; [apply goodWord_val|]|]. split; [|split; [done|]].
    + rewrite !occ_cons, (occW_full w E), (occW_full (binVal idx h)) by (apply binVal_not_empty; [apply V|lia]).
      rewrite binIdx_val by (destruct V; lia). permN.
    + intros Hc. simpl. by rewrite L.
Qed.

Definition stashFull (c : Hasher) : Prop := minus1 ∉ hStash c.

Lemma goodWords_nonempty n num ws : num <= 256 -> Forall (goodWord n num) ws -> minus1 ∉ ws.
Proof.
  intros Hn F Hin. rewrite Forall_forall in F. destruct (goodWord_facts n num _ Hn (F _ Hin)) as (E & _).
  by rewrite binEmpty_minus1 in E.
Qed.

Lemma stash_full_shape n num ws k : num <= 256 -> Forall (goodWord n num) ws ->
  minus1 ∉ (ws ++ replicate k minus1) -> k = 0%nat.
Proof. intros Hn F Hni. destruct k; [done|]. exfalso. apply Hni. set_solver. Qed.

(** The result of [insertHelper]. *)
Lemma insertHelper_spec n left : forall c idx h, WF n c -> valid n idx -> h < hNum c ->
  (exists c', insertHelper left c idx h = Done c' /\ WF n c' /\ shape c c' /\
     length (hStash c') = length (hStash c) /\ Permutation (stored c') (idx :: stored c)) \/
  (insertHelper left c idx h = UB /\ stashFull c).
Proof.
  induction left as [|left IH]; intros c idx h W V Hh;
    pose proof (wf_sized _ _ W) as Sz;
    rewrite insertHelper_put by apply Sz;
    destruct (put_spec n c idx h W V Hh) as (c' & old & -> & W' & Sh & Est & P & [->|G]).
  1,3: left; exists c'; rewrite binEmpty_minus1, occW_empty, app_nil_r, ?Est in *; by split_and!.
  - pose proof (proj2 (sz_num _ _ Sz)) as Hn.
    destruct (goodWord_facts n _ _ Hn G) as (E & V' & H' & _). rewrite E.
    destruct (wf_stash _ _ W') as (ws & k & Es & F).
    destruct (stashShift_spec n (hNum c') k ltac:(by rewrite (proj1 Sh)) ws (binIdx old) (binHash old) F V'
                ltac:(by rewrite (proj1 Sh)))
      as (ws' & hand & Esh & F' & P' & Q & L).
    rewrite Es, Esh. destruct hand as [[hi hh]|].
    + right. split; [done|]. unfold stashFull. rewrite <- Est, Es.
      assert (k = 0%nat) as -> by (destruct (Nat.eq_dec k 0%nat) as [|Hk]; [done|discriminate (proj2 Q Hk)]).
      rewrite app_nil_r. by eapply goodWords_nonempty, F; rewrite (proj1 Sh).
    + left. eexists. split; [done|].
      assert (k ≠ 0%nat) as Hk by (by apply Q).
      split; [|split; [|split]].
      * constructor; [by eapply Sized_shape, (wf_sized _ _ W')|exact (wf_bins _ _ W')|]. by exists ws', (pred k).
      * done.
      * cbn [hStash]. rewrite <- Est, Es, !app_length, !replicate_length.
        assert (length ws' = S (length ws)) as ->; [|lia].
        apply Permutation_length in P'. simpl in P'. rewrite app_nil_r in P'.
        assert (forall l, Forall (goodWord n (hNum c')) l -> length (occ l) = length l) as Lo.
        { intros l Fl. induction Fl as [|w l Gw Fl IHl]; [done|].
          rewrite occ_cons, occW_full; [simpl; by rewrite IHl|].
          by apply (goodWord_facts n (hNum c')); [rewrite (proj1 Sh)|]. }
        by rewrite !Lo in P'.
      * unfold stored in *. cbn [hBins hStash]. rewrite (occW_full old E), Es, !occ_app, !occ_replicate, !app_nil_r in *.
        cbn [from_option] in P'. permN.
  - pose proof (sz_num _ _ Sz) as [Hn1 Hn].
    destruct (goodWord_facts n _ _ Hn G) as (E & V' & H' & _). rewrite E.
    destruct (N.eqb_spec (hNum c) 0); [lia|].
    destruct (IH c' (binIdx old) ((binHash old + 1) mod hNum c) W' V') as [(c2 & E2 & W2 & Sh2 & L2 & P2)|[E2 F2]].
    + rewrite (proj1 Sh). apply N.mod_lt. done.
    + left. exists c2. split; [done|]. split; [done|].
      split; [by eapply shape_trans|]. split; [congruence|].
      rewrite (occW_full old E) in P. permN.
    + right. split; [done|]. unfold stashFull in *. by rewrite <- Est.
Qed.
