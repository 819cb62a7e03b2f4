(** Proofs about the KKRT PSI. *)
From Verif Require Import Base CuckooIndex_Model CuckooIndex_Spec CuckooIndex_Proofs Kkrt_Model.

(** ** Permutation *)

Lemma swap_perm {A} (l : list A) i j a b : l !! i = Some a -> l !! j = Some b ->
  <[j := a]> (<[i := b]> l) ≡ₚ l.
Proof.
  intros Hi Hj. destruct (decide (i = j)) as [->|Hne].
  { rewrite list_insert_insert. rewrite list_insert_id; [done|congruence]. }
  assert (forall i j a b, (i < j)%nat -> l !! i = Some a -> l !! j = Some b ->
            <[j := a]> (<[i := b]> l) ≡ₚ l) as W.
  { clear. intros i j a b Hlt Hi Hj.
    rewrite <- (take_drop_middle l i a Hi) at 1 2.
    pose proof (lookup_lt_Some _ _ _ Hi) as Hl.
    assert (length (take i l) = i) as Lt by (rewrite take_length; lia).
    rewrite insert_app_r_alt by lia. rewrite Lt, Nat.sub_diag. cbn.
    rewrite insert_app_r_alt by lia. rewrite Lt.
    destruct (j - i)%nat as [|d] eqn:Ed; [lia|]. cbn.
    apply Permutation_app_head.
    assert (drop (S i) l !! d = Some b) as Hd by (rewrite lookup_drop, <- Hj; f_equal; lia).
    rewrite (insert_take_drop _ _ a) by eauto using lookup_lt_Some.
    rewrite <- (take_drop_middle _ _ _ Hd) at 3.
    rewrite <- !Permutation_middle. apply Permutation_swap. }
  destruct (Nat.lt_ge_cases i j) as [L|L]; [by apply W|].
  rewrite list_insert_commute by done. apply W; [lia|done..].
Qed.

Definition permInv (n i : nat) (pm iv : list nat) : Prop :=
  pm ≡ₚ seq 0 n /\ length iv = n /\ forall k x, (k < i)%nat -> pm !! k = Some x -> iv !! x = Some k.

Lemma permLoop_ok n rnd k : forall i pm iv, (i + k = n)%nat -> permInv n i pm iv ->
  exists pm' iv', permLoop n rnd k i pm iv = Some (pm', iv') /\ permInv n n pm' iv'.
Proof.
  induction k as [|k IH]; intros i pm iv Hk I.
  { exists pm, iv. split; [done|]. assert (i = n) as -> by lia. done. }
  destruct I as (P & Li & Hinv). cbn [permLoop].
  assert (length pm = n) as Lp by (rewrite P; apply seq_length).
  set (j := (N.to_nat (rnd i mod N.of_nat (n - i)) + i)%nat).
  assert (i <= j < n)%nat as Hj.
  { pose proof (N.mod_lt (rnd i) (N.of_nat (n - i)) ltac:(lia)). lia. }
  destruct (lookup_lt_is_Some_2 pm i ltac:(lia)) as [a Ha].
  destruct (lookup_lt_is_Some_2 pm j ltac:(lia)) as [b Hb].
  cbv zeta. fold j. rewrite Ha, Hb.
  assert (<[j := a]> (<[i := b]> pm) !! i = Some b) as E.
  { destruct (decide (i = j)) as [<-|Hne].
    - rewrite list_lookup_insert; [congruence|rewrite insert_length; lia].
    - rewrite list_lookup_insert_ne by done. apply list_lookup_insert. lia. }
  rewrite E.
  assert (b < n)%nat as Lb.
  { assert (b ∈ pm) as X by eauto using elem_of_list_lookup_2. rewrite P in X. apply elem_of_seq in X. lia. }
  rewrite (proj2 (Nat.ltb_lt b (length iv))) by lia.
  pose proof (swap_perm pm i j a b Ha Hb) as S.
  assert (NoDup (<[j := a]> (<[i := b]> pm))) as ND.
  { eapply NoDup_perm; [symmetry; exact S|]. eapply NoDup_perm; [symmetry; exact P|]. apply NoDup_seq. }
  apply IH; [lia|]. split; [|split].
  - by rewrite S.
  - by rewrite insert_length.
  - intros m x Hm Hx. destruct (decide (m = i)) as [->|Hne].
    + rewrite E in Hx. injection Hx as <-. apply list_lookup_insert. lia.
    + assert (x ≠ b) as Hxb.
      { intros ->. apply Hne. eapply NoDup_lookup; eauto. }
      rewrite list_lookup_insert_ne by done.
      rewrite list_lookup_insert_ne in Hx by lia. rewrite list_lookup_insert_ne in Hx by lia.
      apply Hinv; [lia|done].
Qed.

Lemma drawPermutation_ok n rnd : N.of_nat n < 2 ^ 32 ->
  exists pm iv, drawPermutation n rnd = Done (Some (pm, iv)) /\ pm ≡ₚ seq 0 n /\ length iv = n /\
    forall k x, pm !! k = Some x <-> (k < n)%nat /\ iv !! x = Some k.
Proof.
  intros Hn. unfold drawPermutation. destruct (N.ltb_spec (2 ^ 32 - 1) (N.of_nat n)); [lia|].
  destruct (permLoop_ok n rnd n 0 (seq 0 n) (replicate n O) ltac:(lia)) as (pm & iv & E & P & L & I).
  { split; [done|]. split; [apply replicate_length|]. lia. }
  exists pm, iv. rewrite E. split; [done|]. split; [done|]. split; [done|].
  assert (length pm = n) as Lp by (rewrite P; apply seq_length).
  intros k x. split.
  - intros Hk. pose proof (lookup_lt_Some _ _ _ Hk). split; [lia|]. apply I; [lia|done].
  - intros [Hk Hx].
    assert (x ∈ pm) as Hin.
    { rewrite P. apply elem_of_seq. apply lookup_lt_Some in Hx. lia. }
    apply elem_of_list_lookup in Hin as [k' Hk'].
    pose proof (lookup_lt_Some _ _ _ Hk'). pose proof (I k' x ltac:(lia) Hk'). congruence.
Qed.

(** ** Hash rows *)

(** Candidate bin number [j] of an item with hash [h]. *)
Definition cand (nb h j : N) : N := (N.shiftr h (16 * j) mod two64) mod nb.

Lemma getHash_cand h j nb : 0 < nb -> j <= 4 -> getHash h j nb = Some (cand nb h j).
Proof.
  intros. unfold getHash. destruct (N.eqb_spec nb 0), (N.ltb_spec 4 j); try lia. done.
Qed.
Lemma cand_lt nb h j : 0 < nb -> cand nb h j < nb.
Proof. intros. apply N.mod_lt. lia. Qed.
Lemma cand_mapsTo nb h j b : mapsTo nb h j b <-> b = cand nb h j.
Proof. unfold mapsTo, cand. by rewrite N.shiftr_div_pow2. Qed.

Definition col1 (nb h : N) : bool := cand nb h 0 =? cand nb h 1.
Definition col2 (nb h : N) : bool := (cand nb h 0 =? cand nb h 2) || (cand nb h 1 =? cand nb h 2).

Definition rowOf (nb h : N) : list (N * bool) :=
  [(cand nb h 0, false);
   (if col1 nb h then noBin else cand nb h 1, col1 nb h);
   (if col2 nb h then noBin else cand nb h 2, col2 nb h)].

Lemma markBin_ok b c : b < 2 ^ 64 -> markBin b c = if c then noBin else b.
Proof.
  intros Hb. unfold markBin. destruct c; [|apply N.lor_0_r].
  unfold noBin. change u64max with (N.ones 64). apply N.lor_ones_low.
  destruct (N.eq_dec b 0) as [->|]; [done|]. apply N.log2_lt_pow2; [lia|done].
Qed.

Lemma hashRow8_ok x enc nb : 0 < nb -> nb < 2 ^ 64 ->
  hashRow8 x enc nb = Some (rowOf nb (N.lxor (enc x) x)).
Proof.
  intros H0 H1. unfold hashRow8. rewrite !getHash_cand by lia. cbv zeta.
  rewrite !markBin_ok by (eapply N.lt_trans; [by apply cand_lt|done]). done.
Qed.

Lemma hashRowRem_ok h nb : 0 < nb -> nb < 2 ^ 64 -> hashRowRem h 3 0 nb [] = Some (rowOf nb h).
Proof.
  intros H0 H1. cbn [hashRowRem]. change (0 + 1) with 1. change (1 + 1) with 2.
  rewrite !getHash_cand by lia. cbn [existsb app].
  rewrite !markBin_ok by (eapply N.lt_trans; [by apply cand_lt|done]).
  unfold rowOf, col1, col2. rewrite !orb_false_r. done.
Qed.

Lemma hashRows_ok enc nb xs : 0 < nb -> nb < 2 ^ 64 ->
  hashRows enc nb xs = Some (map (fun x => rowOf nb (N.lxor (enc x) x)) xs).
Proof.
  intros H0 H1. unfold hashRows.
  assert (forall l, mapM (fun x => hashRow8 x enc nb) l = Some (map (fun x => rowOf nb (N.lxor (enc x) x)) l)) as E1.
  { intros l. apply mapM_Some_2. apply Forall2_fmap_r. apply Forall_Forall2_diag. apply Forall_forall. intros x _.
    by apply hashRow8_ok. }
  assert (forall l, mapM (fun x => hashRowRem (N.lxor (enc x) x) 3 0 nb []) l
            = Some (map (fun x => rowOf nb (N.lxor (enc x) x)) l)) as E2.
  { intros l. apply mapM_Some_2. apply Forall2_fmap_r. apply Forall_Forall2_diag. apply Forall_forall. intros x _.
    by apply hashRowRem_ok. }
  rewrite E1, E2, <- map_app, take_drop. done.
Qed.

Lemma rowOf_lookup nb h k w c : 0 < nb -> rowOf nb h !! k = Some (w, c) ->
  (k < 3)%nat /\ (c = true <-> exists k', (k' < k)%nat /\ cand nb h (N.of_nat k') = cand nb h (N.of_nat k)) /\
  (c = false -> w = cand nb h (N.of_nat k) /\ w < nb) /\ (c = true -> w = noBin).
Proof.
  intros H0 H. pose proof (lookup_lt_Some _ _ _ H) as L. cbn in L.
  split; [lia|].
  destruct k as [|[|[|k]]]; [| | |cbn in L; lia]; cbn in H; injection H as <- <-.
  - split; [|split; [|done]].
    + split; [done|]. intros (k' & ? & _). lia.
    + intros _. split; [done|]. by apply cand_lt.
  - unfold col1. destruct (N.eqb_spec (cand nb h 0) (cand nb h 1)) as [E|E].
    + split; [|done]. split; [|done]. intros _. exists 0%nat. split; [lia|]. exact E.
    + split; [|split; [|done]].
      * split; [done|]. intros (k' & Hk & Ek). destruct k' as [|]; [|lia]. done.
      * intros _. split; [done|]. by apply cand_lt.
  - unfold col2. destruct (N.eqb_spec (cand nb h 0) (cand nb h 2)) as [E|E]; [|destruct (N.eqb_spec (cand nb h 1) (cand nb h 2)) as [E'|E']].
    + split; [|done]. split; [|done]. intros _. exists 0%nat. split; [lia|]. exact E.
    + split; [|done]. split; [|done]. intros _. exists 1%nat. split; [lia|]. exact E'.
    + split; [|split; [|done]].
      * split; [done|]. intros (k' & Hk & Ek). destruct k' as [|[|]]; [done|done|lia].
      * intros _. split; [done|]. by apply cand_lt.
Qed.

Lemma concat3_lookup {A} (ls : list (list A)) i h : Forall (fun l => length l = 3%nat) ls -> (h < 3)%nat ->
  concat ls !! (i * 3 + h)%nat = ls !! i ≫= fun l => l !! h.
Proof.
  intros F Hh. revert i. induction F as [|l ls Hl F IH]; intros i; [done|].
  cbn [concat]. destruct i as [|i].
  - rewrite lookup_app_l by lia. done.
  - rewrite lookup_app_r by lia. replace (S i * 3 + h - length l)%nat with (i * 3 + h)%nat by lia. apply IH.
Qed.
Lemma concat3_length {A} (ls : list (list A)) : Forall (fun l => length l = 3%nat) ls ->
  length (concat ls) = (3 * length ls)%nat.
Proof. induction 1; [done|]. cbn [concat length]. rewrite app_length. lia. Qed.

(** ** The sender's loops *)

Section sender.
Context (F : N -> N -> N) (enc : N -> N) (junk : nat -> nat -> N) (ms nb : N).
Context (xs : list N) (pm iv : list nat).
Context (Hnb : 0 < nb) (Hnb64 : nb < 2 ^ 64 - 1).
Context (Hpm : pm ≡ₚ seq 0 (length xs)).
Context (Hlen : length iv = length xs).
Context (Hinv : forall k x, pm !! k = Some x <-> (k < length xs)%nat /\ iv !! x = Some k).

Notation row x := (rowOf nb (N.lxor (enc x) x)).

(** The mask that belongs to entry [(w, c)] number [h] of item [idx]. *)
Definition expected (idx : nat) (x : N) (h : nat) (w : N) (c : bool) : N :=
  (if c then junk idx h else F w x) mod 256 ^ ms.

Definition expMasks (idx : nat) : list N :=
  match xs !! idx with
  | None => []
  | Some x => imap (fun h p => expected idx x h p.1 p.2) (row x)
  end.
Definition allMasks : list N := concat (map expMasks pm).

Lemma pm_length : length pm = length xs.
Proof. clear -Hpm. rewrite Hpm. apply seq_length. Qed.
Lemma pm_range i idx : pm !! i = Some idx -> (idx < length xs)%nat.
Proof. clear -Hpm.
  intros H. assert (idx ∈ pm) as X by eauto using elem_of_list_lookup_2.
  rewrite Hpm in X. apply elem_of_seq in X. lia.
Qed.
Lemma pm_nodup : NoDup pm.
Proof. clear -Hpm. eapply NoDup_perm; [symmetry; exact Hpm|]. apply NoDup_seq. Qed.

Lemma expMasks_length idx : (idx < length xs)%nat -> length (expMasks idx) = 3%nat.
Proof. clear.
  intros H. unfold expMasks. destruct (lookup_lt_is_Some_2 xs idx H) as [x ->]. by rewrite imap_length.
Qed.
Lemma expMasks_lookup idx x h w c : xs !! idx = Some x -> row x !! h = Some (w, c) ->
  expMasks idx !! h = Some (expected idx x h w c).
Proof. clear. intros Hx Hr. unfold expMasks. rewrite Hx, list_lookup_imap, Hr. done. Qed.

Lemma expMasks_all : Forall (fun l => length l = 3%nat) (map expMasks pm).
Proof. clear -Hpm.
  apply Forall_map, Forall_forall. intros idx Hi. apply expMasks_length.
  apply elem_of_list_lookup in Hi as [i Hi]. by eapply pm_range.
Qed.
Lemma allMasks_length : length allMasks = (3 * length xs)%nat.
Proof. clear -Hpm. unfold allMasks. rewrite concat3_length by apply expMasks_all. by rewrite map_length, pm_length. Qed.
Lemma allMasks_lookup i idx x h w c : pm !! i = Some idx -> xs !! idx = Some x -> row x !! h = Some (w, c) ->
  allMasks !! (i * 3 + h)%nat = Some (expected idx x h w c).
Proof. clear -Hpm.
  intros Hi Hx Hr. unfold allMasks. rewrite concat3_lookup; [|apply expMasks_all|].
  - change (map expMasks pm) with (expMasks <$> pm). rewrite list_lookup_fmap, Hi. cbn. by apply expMasks_lookup.
  - apply lookup_lt_Some in Hr. cbn in Hr. lia.
Qed.

Record SInv (s : sendBufs) : Prop := {
  si_bins : length (sbBins s) = (3 * length xs)%nat;
  si_masks : length (sbMasks s) = (3 * length xs)%nat;
  si_entry : forall i idx x h w c, pm !! i = Some idx -> xs !! idx = Some x -> row x !! h = Some (w, c) ->
    exists b m, sbBins s !! (idx * 3 + h)%nat = Some b /\ sbMasks s !! (i * 3 + h)%nat = Some m /\
      ((b = noBin /\ m = expected idx x h w c) \/ (c = false /\ b = w)) }.

Lemma row_three x h : (h < 3)%nat -> exists w c, row x !! h = Some (w, c).
Proof. clear.
  intros Hh. destruct (lookup_lt_is_Some_2 (row x) h) as [[w c] E]; [cbn; lia|]. eauto.
Qed.

Lemma tryEncode_ok arrived r x i idx k : forall h s, (h + k = 3)%nat -> SInv s -> r <= arrived -> r <= nb ->
  pm !! i = Some idx -> xs !! idx = Some x ->
  exists s', tryEncode F ms arrived r x i idx h k s = Some s' /\ SInv s'.
Proof.
  induction k as [|k IH]; intros h s Hk I Hr Hrn Hi Hx; [eauto|].
  cbn [tryEncode]. destruct (row_three x h ltac:(lia)) as (w & c & Er).
  destruct (si_entry _ I i idx x h w c Hi Hx Er) as (b & m & Eb & Em & D). rewrite Eb.
  destruct (N.ltb_spec b r) as [L|L]; [|apply IH; try done; lia].
  destruct D as [[-> _]|[-> ->]]; [unfold noBin, u64max in L; lia|].
  unfold encodeS. rewrite (proj2 (N.ltb_lt w arrived)) by lia.
  pose proof (lookup_lt_Some _ _ _ Em) as Lm. pose proof (lookup_lt_Some _ _ _ Eb) as Lb.
  rewrite (proj2 (Nat.ltb_lt _ _) Lm). apply IH; try done; [lia|].
  constructor; cbn [sbBins sbMasks].
  - rewrite insert_length. apply I.
  - rewrite insert_length. apply I.
  - intros i' idx' x' h' w' c' Hi' Hx' Er'.
    pose proof (lookup_lt_Some _ _ _ Er') as Lh. cbn in Lh.
    destruct (si_entry _ I _ _ _ _ _ _ Hi' Hx' Er') as (b' & m' & Eb' & Em' & D').
    destruct (decide (i' = i /\ h' = h)) as [[-> ->]|Hne].
    + assert (idx' = idx) as -> by congruence. assert (x' = x) as -> by congruence.
      rewrite Er in Er'. injection Er' as <- <-.
      exists noBin, (F w x mod 256 ^ ms). rewrite !list_lookup_insert by done. split; [done|]. split; [done|].
      left. done.
    + exists b', m'. rewrite !list_lookup_insert_ne; [done|lia|].
      intros E. apply Hne. assert (idx = idx') as -> by lia. split; [|lia].
      eapply NoDup_lookup; [apply pm_nodup|done|done].
Qed.

Lemma finalEncode_ok arrived x i idx k : forall h s, (h + k = 3)%nat -> SInv s -> nb <= arrived ->
  pm !! i = Some idx -> xs !! idx = Some x ->
  exists s', finalEncode F ms arrived x i idx h k s = Some s' /\ SInv s' /\
    (forall q, (q < i * 3 + h)%nat -> sbMasks s' !! q = sbMasks s !! q) /\
    (forall h', (h <= h' < 3)%nat -> sbMasks s' !! (i * 3 + h')%nat = allMasks !! (i * 3 + h')%nat).
Proof.
  induction k as [|k IH]; intros h s Hk I Ha Hi Hx.
  { exists s. split; [done|]. split; [done|]. split; [done|]. intros h' ?. lia. }
  cbn [finalEncode]. destruct (row_three x h ltac:(lia)) as (w & c & Er).
  destruct (si_entry _ I i idx x h w c Hi Hx Er) as (b & m & Eb & Em & D). rewrite Eb.
  destruct (rowOf_lookup nb (N.lxor (enc x) x) h w c Hnb Er) as (_ & _ & Hw & _).
  destruct (N.eqb_spec b noBin) as [->|Hb].
  - destruct (IH (S h) s ltac:(lia) I Ha Hi Hx) as (s' & E & I' & Q & R).
    exists s'. split; [done|]. split; [done|]. split; [intros q Hq; apply Q; lia|].
    intros h' Hh'. destruct (decide (h' = h)) as [->|]; [|apply R; lia].
    rewrite Q by lia. rewrite (allMasks_lookup i idx x h w c Hi Hx Er), Em.
    destruct D as [[_ ->]|[-> Ew]]; [done|].
    destruct (Hw eq_refl). unfold noBin, u64max in Ew. lia.
  - destruct D as [[-> _]|[-> ->]]; [done|]. destruct (Hw eq_refl) as [Ew Lw].
    unfold encodeS. rewrite (proj2 (N.ltb_lt w arrived)) by lia.
    pose proof (lookup_lt_Some _ _ _ Em) as Lm.
    rewrite (proj2 (Nat.ltb_lt _ _) Lm).
    set (s1 := mkBufs (sbBins s) (<[(i * 3 + h)%nat := F w x mod 256 ^ ms]> (sbMasks s))).
    assert (SInv s1) as I1.
    { constructor; cbn [sbBins sbMasks s1]; [apply I|rewrite insert_length; apply I|].
      intros i' idx' x' h' w' c' Hi' Hx' Er'.
      pose proof (lookup_lt_Some _ _ _ Er') as Lh. cbn in Lh.
      destruct (si_entry _ I _ _ _ _ _ _ Hi' Hx' Er') as (b' & m' & Eb' & Em' & D').
      destruct (decide (i' = i /\ h' = h)) as [[-> ->]|Hne].
      - assert (idx' = idx) as -> by congruence. assert (x' = x) as -> by congruence.
        rewrite Er in Er'. injection Er' as <- <-.
        exists w, (F w x mod 256 ^ ms). rewrite list_lookup_insert by done. split; [done|]. split; [done|].
        right. done.
      - exists b', m'. rewrite list_lookup_insert_ne; [done|lia]. }
    destruct (IH (S h) s1 ltac:(lia) I1 Ha Hi Hx) as (s' & E & I' & Q & R).
    exists s'. split; [done|]. split; [done|]. split.
    + intros q Hq. rewrite Q by lia. unfold s1. cbn [sbMasks]. rewrite list_lookup_insert_ne by lia. done.
    + intros h' Hh'. destruct (decide (h' = h)) as [->|]; [|apply R; lia].
      rewrite Q by lia. unfold s1. cbn [sbMasks]. rewrite list_lookup_insert by done.
      rewrite (allMasks_lookup i idx x h w false Hi Hx Er). done.
Qed.

Lemma finalChunk_ok arrived k : forall i s, (i + k <= length xs)%nat -> SInv s -> nb <= arrived ->
  exists s', finalChunk F ms arrived xs pm i k s = Some s' /\ SInv s' /\
    (forall q, (q < i * 3)%nat -> sbMasks s' !! q = sbMasks s !! q) /\
    (forall q, (i * 3 <= q < (i + k) * 3)%nat -> sbMasks s' !! q = allMasks !! q).
Proof.
  induction k as [|k IH]; intros i s Hk I Ha.
  { exists s. split; [done|]. split; [done|]. split; [done|]. intros; lia. }
  cbn [finalChunk]. destruct (lookup_lt_is_Some_2 pm i) as [idx Hi]; [rewrite pm_length; lia|]. rewrite Hi.
  destruct (lookup_lt_is_Some_2 xs idx (pm_range _ _ Hi)) as [x Hx]. rewrite Hx.
  destruct (finalEncode_ok arrived x i idx 3 0 s eq_refl I Ha Hi Hx) as (s1 & E1 & I1 & Q1 & R1). rewrite E1.
  destruct (IH (S i) s1 ltac:(lia) I1 Ha) as (s2 & E2 & I2 & Q2 & R2).
  exists s2. split; [done|]. split; [done|]. split.
  - intros q Hq. rewrite Q2 by lia. apply Q1. lia.
  - intros q Hq. destruct (Nat.lt_ge_cases q (S i * 3)) as [L|L].
    + rewrite Q2 by lia. replace q with (i * 3 + (q - i * 3))%nat by lia. apply R1. lia.
    + apply R2. lia.
Qed.

(** Region [r] of the masks, as the receiver expects it. *)
Definition regionMsg (r : nat) : list N :=
  take (Nat.min stepSize (length xs - r * stepSize) * 3) (drop (r * stepSize * 3) allMasks).
Definition numRegions : nat := ((length xs + stepSize - 1) / stepSize)%nat.

Lemma stepSize_val : stepSize = 1024%nat. Proof. done. Qed.
Local Opaque stepSize.

Lemma regions_bound r : (r * stepSize < length xs)%nat <-> (r < numRegions)%nat.
Proof. clear. unfold numRegions. rewrite stepSize_val. split; intros; nia. Qed.

Lemma take_drop_ext {A} (l1 l2 : list A) a b : (forall q, (a <= q < a + b)%nat -> l1 !! q = l2 !! q) ->
  take b (drop a l1) = take b (drop a l2).
Proof. clear.
  intros H. apply list_eq. intros k. destruct (Nat.lt_ge_cases k b) as [L|L].
  - rewrite !lookup_take, !lookup_drop by done. apply H. lia.
  - rewrite !lookup_take_ge by done. done.
Qed.

Lemma finalPass_ok arrived fuel : forall r s, (numRegions - r <= fuel)%nat -> SInv s -> nb <= arrived ->
  (r * stepSize <= length xs)%nat ->
  finalPass F ms arrived xs pm fuel (r * stepSize) s = Some (map regionMsg (seq r (numRegions - r))) \/
  (length xs < r * stepSize)%nat.
Proof.
  induction fuel as [|fuel IH]; intros r s Hf I Ha Hr.
  - left. cbn [finalPass]. destruct (Nat.ltb_spec (r * stepSize) (length xs)) as [L|L].
    + apply regions_bound in L. lia.
    + replace (numRegions - r)%nat with 0%nat by lia. done.
  - left. cbn [finalPass]. destruct (Nat.ltb_spec (r * stepSize) (length xs)) as [L|L].
    2:{ assert (~ (r < numRegions)%nat) by (rewrite <- regions_bound; lia).
        replace (numRegions - r)%nat with 0%nat by lia. done. }
    set (cur := Nat.min stepSize (length xs - r * stepSize)).
    assert (r < numRegions)%nat as Lr by (by apply regions_bound).
    destruct (finalChunk_ok arrived cur (r * stepSize) s ltac:(lia) I Ha) as (s1 & E1 & I1 & _ & R1).
    rewrite E1.
    assert (finalPass F ms arrived xs pm fuel (r * stepSize + cur) s1
            = Some (map regionMsg (seq (S r) (numRegions - S r)))) as ->.
    { destruct (Nat.lt_ge_cases (S r) numRegions) as [L2|L2].
      - apply regions_bound in L2.
        replace (r * stepSize + cur)%nat with (S r * stepSize)%nat by lia.
        destruct (IH (S r) s1 ltac:(lia) I1 Ha ltac:(lia)) as [E|]; [exact E|lia].
      - replace (numRegions - S r)%nat with 0%nat by lia.
        assert (~ (S r * stepSize < length xs)%nat) by (rewrite regions_bound; lia).
        destruct fuel; cbn [finalPass]; rewrite (proj2 (Nat.ltb_ge _ _)); try done; lia. }
    replace (numRegions - r)%nat with (S (numRegions - S r)) by lia. cbn [seq map]. f_equal. f_equal.
    unfold regionMsg. fold cur. apply take_drop_ext. intros q Hq. apply R1. lia.
Qed.

Lemma finalPass_all arrived s : SInv s -> nb <= arrived ->
  finalPass F ms arrived xs pm (length xs) 0 s = Some (map regionMsg (seq 0 numRegions)).
Proof.
  intros I Ha. destruct (finalPass_ok arrived (length xs) 0 s) as [E|]; try done; try lia.
  - unfold numRegions. rewrite stepSize_val. nia.
  - by rewrite Nat.sub_0_r in E.
Qed.

(** *** hashItems establishes the invariant *)

Lemma junkRow_ok jk r pos : forall h masks, (pos + h + length r <= length masks)%nat ->
  exists masks', junkRow jk r pos h masks = Some masks' /\ length masks' = length masks /\
    (forall q, (q < pos + h \/ pos + h + length r <= q)%nat -> masks' !! q = masks !! q) /\
    (forall k w, r !! k = Some (w, true) -> masks' !! (pos + h + k)%nat = Some (jk (h + k)%nat)).
Proof.
  induction r as [|[w c] r IH]; intros h masks Hl.
  { exists masks. split; [done|]. split; [done|]. split; [done|]. intros k w H. done. }
  cbn [junkRow]. cbn [length] in *. destruct c.
  - rewrite (proj2 (Nat.ltb_lt _ _)) by lia.
    destruct (IH (S h) (<[(pos + h)%nat := jk h]> masks)) as (m' & E & L & Q & R); [rewrite insert_length; lia|].
    rewrite insert_length in L. exists m'. split; [done|]. split; [done|]. split.
    + intros q Hq. rewrite Q by lia. rewrite list_lookup_insert_ne by lia. done.
    + intros [|k] w' H.
      * rewrite Nat.add_0_r, Q by lia. rewrite list_lookup_insert by lia. by rewrite Nat.add_0_r.
      * cbn in H. specialize (R _ _ H). replace (pos + h + S k)%nat with (pos + S h + k)%nat by lia.
        rewrite R. f_equal. f_equal. lia.
  - destruct (IH (S h) masks) as (m' & E & L & Q & R); [lia|].
    exists m'. split; [done|]. split; [done|]. split.
    + intros q Hq. apply Q. lia.
    + intros [|k] w' H; [done|]. cbn in H. specialize (R _ _ H). replace (pos + h + S k)%nat with (pos + S h + k)%nat by lia.
      rewrite R. f_equal. f_equal. lia.
Qed.

Lemma junkRows_ok jk ys : forall item masks, (item + length ys = length xs)%nat ->
  length masks = (3 * length xs)%nat ->
  exists masks', junkRows jk iv (map (fun x => row x) ys) item masks = Some masks' /\ length masks' = length masks /\
    (forall i idx h, pm !! i = Some idx -> (idx < item)%nat -> (h < 3)%nat -> masks' !! (i * 3 + h)%nat = masks !! (i * 3 + h)%nat) /\
    (forall i k x h w, pm !! i = Some (item + k)%nat -> ys !! k = Some x -> row x !! h = Some (w, true) ->
       masks' !! (i * 3 + h)%nat = Some (jk (item + k)%nat h)).
Proof.
  induction ys as [|y ys IH]; intros item masks Hl Hm.
  { exists masks. split; [done|]. split; [done|]. split; [done|]. intros i k x h w _ H. done. }
  cbn [length] in Hl. cbn [map junkRows].
  destruct (lookup_lt_is_Some_2 iv item ltac:(lia)) as [p Hp]. rewrite Hp.
  assert (p < length xs)%nat as Lp.
  { assert (item ∈ pm) as X by (rewrite Hpm; apply elem_of_seq; lia).
    apply elem_of_list_lookup in X as [k Hk]. apply Hinv in Hk as [? Hk]. congruence. }
  assert (pm !! p = Some item) as Hpp by (apply Hinv; done).
  destruct (junkRow_ok (jk item) (row y) (p * 3) 0 masks) as (m1 & E1 & L1 & Q1 & R1); [cbn; lia|].
  rewrite E1.
  destruct (IH (S item) m1 ltac:(lia) ltac:(lia)) as (m2 & E2 & L2 & Q2 & R2).
  exists m2. split; [done|]. split; [lia|]. split.
  - intros i idx h Hi Hlt Hh. rewrite (Q2 i idx h Hi ltac:(lia) Hh).
    apply Q1. cbn. assert (i ≠ p) by (intros ->; assert (idx = item) by congruence; lia). lia.
  - intros i [|k] x h w Hi Hk Hr.
    + rewrite Nat.add_0_r in *. cbn in Hk. injection Hk as <-.
      assert (i = p) as -> by (eapply NoDup_lookup; [apply pm_nodup|done|done]).
      pose proof (lookup_lt_Some _ _ _ Hr) as Lh. cbn in Lh.
      rewrite (Q2 p item h Hpp ltac:(lia) ltac:(lia)). specialize (R1 _ _ Hr). cbn [Nat.add] in R1.
      exact R1.
    + replace (item + S k)%nat with (S item + k)%nat in * by lia. by apply (R2 i k x h w).
Qed.

Lemma hashItems_ok : exists s, hashItems enc junk ms nb iv xs = Some s /\ SInv s.
Proof.
  unfold hashItems. rewrite hashRows_ok by lia.
  destruct (junkRows_ok (fun i h => junk i h mod 256 ^ ms) xs 0 (replicate (3 * length xs) 0)) as (m & E & L & _ & R).
  { lia. } { apply replicate_length. }
  rewrite E. rewrite replicate_length in L. eexists. split; [reflexivity|].
  assert (Forall (fun l : list N => length l = 3%nat) (map (map fst) (map (fun x => row x) xs))) as F3.
  { apply Forall_map, Forall_map, Forall_forall. done. }
  constructor; cbn [sbBins sbMasks].
  - rewrite concat3_length by done. by rewrite !map_length.
  - done.
  - intros i idx x h w c Hi Hx Hr. pose proof (lookup_lt_Some _ _ _ Hr) as Lh. cbn in Lh.
    exists w. rewrite concat3_lookup by (done || lia).
    change (map (map fst) (map (fun x => row x) xs)) with (map fst <$> ((fun x => row x) <$> xs)).
    rewrite !list_lookup_fmap, Hx. cbn [fmap option_fmap option_map mbind option_bind].
    change (map fst (row x)) with (fst <$> row x). rewrite list_lookup_fmap, Hr.
    destruct (lookup_lt_is_Some_2 m (i * 3 + h)%nat) as [v Hv].
    { apply lookup_lt_Some in Hi. rewrite pm_length in Hi. lia. }
    exists v. split; [done|]. split; [done|].
    destruct (rowOf_lookup nb (N.lxor (enc x) x) h w c Hnb Hr) as (_ & _ & _ & Hw).
    destruct c; [left|right; done]. split; [by apply Hw|].
    rewrite (R i idx x h w) in Hv by done. by injection Hv as <-.
Qed.

(** *** Threads *)

Definition GInv (g : arrivals) : Prop := gRecved g <= gArrived g <= nb.
Definition sentMsgs : list (list N) := map regionMsg (seq 0 numRegions).
Definition EInv (g : arrivals) (e : encoder) : Prop :=
  match e with
  | Looping j i r s => (j <= stepSize)%nat /\ (i < length xs)%nat /\ r <= gRecved g /\ SInv s
  | Sent msgs => msgs = sentMsgs
  end.

Lemma receiverTurn_ok g : GInv g -> GInv (receiverTurn nb g) /\ gRecved g <= gRecved (receiverTurn nb g).
Proof. clear.
  intros I. unfold GInv, receiverTurn in *. destruct (N.ltb_spec (gRecved g) nb); [|lia].
  destruct (N.eqb_spec (gArrived g) (gRecved g)); cbn [gArrived gRecved]; lia.
Qed.

Lemma EInv_mono g g' e : gRecved g <= gRecved g' -> EInv g e -> EInv g' e.
Proof. intros H. destruct e; [|done]. intros (? & ? & ? & ?). split; [done|]. split; [done|]. split; [lia|done]. Qed.

Lemma loopTest_ok g i r s : GInv g -> (i < length xs)%nat -> r <= gRecved g -> SInv s ->
  exists e, loopTest F ms nb xs pm g i r s = Some e /\ EInv g e /\ (r = nb -> exists m, e = Sent m) /\
    (r ≠ nb -> e = Looping 0 i r s).
Proof.
  intros G Hi Hr I. unfold loopTest. destruct (N.eqb_spec r nb) as [->|Hne].
  - rewrite finalPass_all; [|done|unfold GInv in G; lia]. eexists. split; [reflexivity|]. split; [done|].
    split; [eauto|done].
  - eexists. split; [reflexivity|]. split; [|done]. split; [lia|]. done.
Qed.

Lemma encoderTurn_ok g e : GInv g -> EInv g e -> exists e', encoderTurn F ms nb xs pm g e = Some e' /\ EInv g e'.
Proof.
  intros G I. destruct e as [j i r s|msgs]; cbn [encoderTurn]; [|eauto].
  destruct I as (Hj & Hi & Hr & I). destruct (Nat.ltb_spec j stepSize).
  - destruct (lookup_lt_is_Some_2 pm i) as [idx Hp]; [rewrite pm_length; lia|]. rewrite Hp.
    destruct (lookup_lt_is_Some_2 xs idx (pm_range _ _ Hp)) as [x Hx]. rewrite Hx.
    unfold GInv in G.
    destruct (tryEncode_ok (gArrived g) r x i idx 3 0 s eq_refl I ltac:(lia) ltac:(lia) Hp Hx) as (s' & E & I').
    rewrite E. rewrite (proj2 (Nat.eqb_neq _ _)) by lia. eexists. split; [reflexivity|].
    split; [lia|]. split; [apply Nat.mod_upper_bound; lia|]. done.
  - destruct (loopTest_ok g i (gRecved g) s G Hi ltac:(lia) I) as (e & E & I' & _). eauto.
Qed.

Lemma runSender_ok sched : forall g e, GInv g -> EInv g e ->
  exists g' e', runSender F ms nb xs pm sched g e = Some (g', e') /\ GInv g' /\ EInv g' e' /\ gRecved g <= gRecved g'.
Proof.
  induction sched as [|[] sched IH]; intros g e G I; cbn [runSender].
  - exists g, e. split; [done|]. split; [done|]. split; [done|]. lia.
  - destruct (receiverTurn_ok g G) as [G' M].
    destruct (IH _ e G' (EInv_mono _ _ _ M I)) as (g' & e' & ? & ? & ? & ?).
    exists g', e'. split; [done|]. split; [done|]. split; [done|]. lia.
  - destruct (encoderTurn_ok g e G I) as (e1 & -> & I1). apply IH; done.
Qed.

Lemma runSender_app s1 : forall s2 g e, runSender F ms nb xs pm (s1 ++ s2) g e =
  match runSender F ms nb xs pm s1 g e with
  | None => None | Some (g', e') => runSender F ms nb xs pm s2 g' e' end.
Proof.
  induction s1 as [|[] s1 IH]; intros s2 g e; cbn [runSender app]; [done|apply IH|].
  destruct (encoderTurn F ms nb xs pm g e); [apply IH|done].
Qed.

(** Enough turns of the background thread make all corrections available. *)
Definition turnsLeft (g : arrivals) : N :=
  2 * (nb - gRecved g) - (if gArrived g =? gRecved g then 0 else 1).

Lemma receiverTurn_progress g : GInv g -> gRecved g < nb -> turnsLeft (receiverTurn nb g) < turnsLeft g.
Proof. clear.
  intros I L. unfold GInv, turnsLeft, receiverTurn in *. rewrite (proj2 (N.ltb_lt _ _) L).
  destruct (N.eqb_spec (gArrived g) (gRecved g)) as [E|E]; cbn [gArrived gRecved].
  - destruct (N.eqb_spec (gRecved g + N.min 1024 (nb - gRecved g)) (gRecved g)); lia.
  - rewrite N.eqb_refl. lia.
Qed.
Lemma receiverTurn_stuck g : GInv g -> nb <= gRecved g -> receiverTurn nb g = g.
Proof. clear. intros I L. unfold receiverTurn. by rewrite (proj2 (N.ltb_ge _ _) L). Qed.

Lemma background_finishes sched : forall g e g' e', GInv g -> EInv g e ->
  runSender F ms nb xs pm sched g e = Some (g', e') ->
  turnsLeft g <= N.of_nat (length (filter (fun b => b = true) sched)) -> gRecved g' = nb.
Proof.
  induction sched as [|[] sched IH]; intros g e g' e' G I E Hc; cbn [runSender] in E.
  - injection E as <- <-. cbn in Hc. unfold GInv, turnsLeft in *. destruct (gArrived g =? gRecved g) eqn:Q.
    + apply N.eqb_eq in Q. lia.
    + apply N.eqb_neq in Q. lia.
  - rewrite filter_cons_True in Hc by done. cbn [length] in Hc.
    destruct (receiverTurn_ok g G) as [G1 M].
    destruct (N.lt_ge_cases (gRecved g) nb) as [L|L].
    + eapply IH; [exact G1|by eapply EInv_mono|exact E|].
      pose proof (receiverTurn_progress g G L). lia.
    + destruct (runSender_ok sched _ e G1 (EInv_mono _ _ _ M I)) as (g2 & e2 & E2 & G2 & _ & M2).
      rewrite E in E2. injection E2 as <- <-. unfold GInv in *. lia.
  - rewrite filter_cons_False in Hc by done.
    destruct (encoderTurn_ok g e G I) as (e1 & E1 & I1). rewrite E1 in E. by eapply IH.
Qed.

Lemma encoder_finishes sched : forall g e g' e', GInv g -> EInv g e -> gRecved g = nb ->
  runSender F ms nb xs pm sched g e = Some (g', e') ->
  match e with Looping j _ _ _ => (stepSize - j < length (filter (fun b => b = false) sched))%nat | _ => True end ->
  exists m, e' = Sent m.
Proof.
  induction sched as [|[] sched IH]; intros g e g' e' G I Hg E Hc; cbn [runSender] in E.
  - injection E as <- <-. destruct e; [cbn in Hc; lia|eauto].
  - rewrite filter_cons_False in Hc by done. rewrite receiverTurn_stuck in E by (done || lia).
    by eapply IH.
  - rewrite filter_cons_True in Hc by done. cbn [length] in Hc.
    destruct (encoderTurn_ok g e G I) as (e1 & E1 & I1). rewrite E1 in E.
    eapply IH; [done|exact I1|done|exact E|].
    destruct e as [j i r s|msgs]; [|cbn in E1; injection E1 as <-; done].
    cbn [encoderTurn] in E1. destruct (Nat.ltb_spec j stepSize).
    + destruct (pm !! i); [|done]. destruct (xs !! _); [|done]. destruct (tryEncode _ _ _ _ _ _ _ _ _ _); [|done].
      destruct (_ =? 0)%nat; [done|]. injection E1 as <-. lia.
    + destruct I as (_ & Hi & Hr & Is).
      destruct (loopTest_ok g i (gRecved g) s G Hi ltac:(lia) Is) as (e2 & E2 & _ & S2 & _).
      rewrite E1 in E2. injection E2 as <-. destruct (S2 Hg) as [m ->]. done.
Qed.

End sender.
