(** Evaluation of the whole domain. *)
From Verif Require Import Base Bgi_Model Bgi_Spec Bgi_Proofs.

(** ** Lists of equally long pieces *)

Lemma lookup_concat_fixed {A} (ls : list (list A)) m : Forall (fun l => length l = m) ls ->
  forall i j l, ls !! i = Some l -> (j < m)%nat -> concat ls !! (i * m + j)%nat = l !! j.
Proof.
  induction 1 as [|l0 ls E _ IH]; intros i j l Hi Hj; [done|]. cbn [concat]. destruct i as [|i].
  - injection Hi as <-. rewrite Nat.mul_0_l, Nat.add_0_l. apply lookup_app_l. lia.
  - rewrite lookup_app_r by lia. rewrite <- (IH i j l Hi Hj). f_equal. lia.
Qed.
Lemma length_concat_fixed {A} (ls : list (list A)) m : Forall (fun l => length l = m) ls ->
  length (concat ls) = (length ls * m)%nat.
Proof. induction 1 as [|l ls E _ IH]; cbn; [done|]. rewrite app_length, IH. lia. Qed.

(** ** Bytes of a leaf *)

Lemma sraLane_low v k : k < 8 -> N.land (sraLane v k) 1 = bit2N (N.testbit v k).
Proof.
  intros Hk. rewrite land_one'. f_equal. unfold lsb, sraLane. rewrite N.mod_pow2_bits_low by lia.
  rewrite <- N.shiftr_div_pow2, N.shiftr_spec', N.add_0_l. destruct (2 ^ 15 <=? v).
  - rewrite <- (N.mod_pow2_bits_low _ 16 k) by lia. rewrite N.mod_add by done. by rewrite N.mod_pow2_bits_low by lia.
  - by rewrite N.add_0_r.
Qed.
Lemma sraLane_high v k : k < 8 -> N.land (sraLane v k / 256) 1 = bit2N (N.testbit v (8 + k)).
Proof.
  intros Hk. rewrite land_one'. f_equal. unfold lsb, sraLane. change 256 with (2 ^ 8).
  rewrite <- N.shiftr_div_pow2, N.shiftr_spec', N.add_0_l. rewrite N.mod_pow2_bits_low by lia.
  rewrite <- N.shiftr_div_pow2, N.shiftr_spec'. destruct (2 ^ 15 <=? v).
  - rewrite <- (N.mod_pow2_bits_low _ 16 (8 + k)) by lia. rewrite N.mod_add by done. by rewrite N.mod_pow2_bits_low by lia.
  - by rewrite N.add_0_r.
Qed.

Lemma sraBytes_length b k : length (sraBytes b k) = 16%nat.
Proof. done. Qed.
Lemma sraBytes_ok b k j : k < 8 -> (j < 16)%nat -> sraBytes b k !! j = Some (bit2N (N.testbit b (8 * N.of_nat j + k))).
Proof.
  intros Hk Hj. unfold sraBytes. set (f := fun l : nat => _).
  assert (Forall (fun l => length l = 2%nat) (map f (seq 0 8))) as Fl by (apply Forall_forall; intros l Hl; apply elem_of_list_fmap in Hl as (? & -> & _); done).
  assert (j / 2 < 8)%nat as H8 by (apply Nat.div_lt_upper_bound; lia).
  pose proof (Nat.div_mod j 2 ltac:(lia)) as Hdm. pose proof (Nat.mod_upper_bound j 2 ltac:(lia)) as Hm.
  replace j with (j / 2 * 2 + j mod 2)%nat at 1 by lia.
  rewrite (lookup_concat_fixed _ 2 Fl (j / 2) (j mod 2) (f (j / 2)%nat)) by (done || by apply lookup_map_seq).
  assert (forall i, i < 16 -> N.testbit ((b / 2 ^ (16 * N.of_nat (j / 2))) mod 2 ^ 16) i = N.testbit b (16 * N.of_nat (j / 2) + i)) as Hb.
  { intros i Hi. rewrite N.mod_pow2_bits_low by done. rewrite <- N.shiftr_div_pow2, N.shiftr_spec'. f_equal. lia. }
  unfold f. destruct (j mod 2)%nat as [|[|]] eqn:E; [| |lia]; cbn [lookup list_lookup].
  - rewrite sraLane_low, Hb by lia. do 3 f_equal. lia.
  - rewrite sraLane_high, Hb by lia. do 3 f_equal. lia.
Qed.

Lemma expandBlock_length b : length (expandBlock b) = 128%nat.
Proof. done. Qed.
Lemma expandBlock_ok b i : (i < 128)%nat ->
  expandBlock b !! i = Some (bit2N (N.testbit b (8 * (N.of_nat i mod 16) + N.of_nat i / 16))).
Proof.
  intros Hi. unfold expandBlock. set (f := fun k : nat => _).
  assert (Forall (fun l => length l = 16%nat) (map f (seq 0 8))) as Fl by (apply Forall_forall; intros l Hl; apply elem_of_list_fmap in Hl as (? & -> & _); done).
  pose proof (Nat.div_mod i 16 ltac:(lia)) as Hdm. pose proof (Nat.mod_upper_bound i 16 ltac:(lia)) as Hm.
  assert (i / 16 < 8)%nat as H8 by (apply Nat.div_lt_upper_bound; lia).
  replace i with (i / 16 * 16 + i mod 16)%nat at 1 by lia.
  rewrite (lookup_concat_fixed _ 16 Fl (i / 16) (i mod 16) (f (i / 16)%nat)) by (done || by apply lookup_map_seq).
  unfold f. rewrite sraBytes_ok by lia. do 3 f_equal. lia.
Qed.

Lemma leafWords_lookup aes s g i : leafWords aes s g !! i = (fun gi => N.lxor (leafBlock aes s i) (maskIf (lsb s) gi)) <$> g !! i.
Proof. unfold leafWords. by rewrite list_lookup_imap. Qed.

Lemma leafBytes_length aes s g : length (leafBytes aes s g) = (length g * 128)%nat.
Proof.
  unfold leafBytes. rewrite (length_concat_fixed _ 128).
  - by rewrite map_length; unfold leafWords; rewrite imap_length.
  - apply Forall_forall. intros l Hl. apply elem_of_list_fmap in Hl as (? & -> & _). done.
Qed.
Lemma leafBytes_ok aes s g i : i < N.of_nat (length g) * 128 ->
  leafBytes aes s g !! N.to_nat i = Some (bit2N (leafBit aes s g i)).
Proof.
  intros Hi. unfold leafBytes.
  assert (Forall (fun l => length l = 128%nat) (map expandBlock (leafWords aes s g))) as Fl.
  { apply Forall_forall. intros l Hl. apply elem_of_list_fmap in Hl as (? & -> & _). done. }
  replace (N.to_nat i) with (N.to_nat (i / 128) * 128 + N.to_nat (i mod 128))%nat by lia.
  destruct (lookup_lt_is_Some_2 g (N.to_nat (i / 128))) as [gi Hgi]; [lia|].
  rewrite (lookup_concat_fixed _ 128 Fl _ _ (expandBlock (N.lxor (leafBlock aes s (N.to_nat (i / 128))) (maskIf (lsb s) gi)))).
  - rewrite expandBlock_ok by lia. unfold leafBit. rewrite Hgi. f_equal. f_equal.
    replace (N.of_nat (N.to_nat (i mod 128)) mod 16) with (i mod 16) by lia. rewrite N2Nat.id.
    set (P := 8 * (i mod 16) + i mod 128 / 16). rewrite N.lxor_spec. f_equal.
    destruct (lsb s); cbn [maskIf]; [by rewrite andb_true_r|by rewrite N.bits_0, andb_false_r].
  - rewrite (list_lookup_fmap expandBlock), leafWords_lookup, Hgi. done.
  - lia.
Qed.

(** The bytes of a leaf are the values of [evalOne]. *)
Definition evalBit (aes : bool -> N -> N) (k g : list N) (p : N) : bool :=
  match evalOne aes p k g with Done b => b | _ => false end.
Lemma leafBytes_eval aes k0 cws g x i : i < N.of_nat (length g) * 128 ->
  leafBytes aes (traverse aes k0 cws x) g !! N.to_nat i
  = Some (bit2N (evalBit aes (k0 :: cws) g (x * (N.of_nat (length g) * 128) + i))).
Proof.
  intros Hi. rewrite leafBytes_ok by done. unfold evalBit. rewrite evalOne_leaf by (intros ->; cbn in Hi; lia).
  set (L := N.of_nat (length g) * 128) in *. do 3 f_equal.
  - f_equal. rewrite N.div_add_l by lia. rewrite N.div_small by done. lia.
  - rewrite N.add_comm, N.mod_add by lia. by rewrite N.mod_small.
Qed.

Lemma leafBytes_imap aes k0 cws g x :
  leafBytes aes (traverse aes k0 cws x) g =
  map (fun i => bit2N (evalBit aes (k0 :: cws) g (x * (N.of_nat (length g) * 128) + N.of_nat i))) (seq 0 (length g * 128)).
Proof.
  apply list_eq_same_length with (n := (length g * 128)%nat); [by rewrite map_length, seq_length|apply leafBytes_length|].
  intros i b b' Hi Hb Hb'. rewrite lookup_map_seq in Hb' by done. injection Hb' as <-.
  pose proof (leafBytes_eval aes k0 cws g x (N.of_nat i) ltac:(lia)) as E. rewrite Nat2N.id, Hb in E. by injection E.
Qed.

(** ** Paths *)

Lemma traverse_app aes c1 : forall c2 s x, traverse aes s (c1 ++ c2) x = traverse aes (traverse aes s c1 (x / 2 ^ N.of_nat (length c2))) c2 x.
Proof.
  induction c1 as [|cw c1 IH]; intros c2 s x; [done|]. cbn [app traverse]. rewrite IH. f_equal. f_equal. f_equal.
  rewrite <- N.shiftr_div_pow2, N.shiftr_spec', app_length. f_equal. lia.
Qed.
Lemma traverse_low aes cws : forall s x y, sameLow (length cws) x y -> traverse aes s cws x = traverse aes s cws y.
Proof.
  induction cws as [|cw cws IH]; intros s x y H; [done|]. cbn [traverse]. cbn [length] in H.
  rewrite (H (N.of_nat (length cws))) by lia. apply IH. intros i Hi. apply H. lia.
Qed.

Lemma topLevels_ok aes n : forall cws prev, (n <= length cws)%nat ->
  exists r, topLevels aes n cws prev = Some r /\ length r = (length prev * 2 ^ n)%nat /\
    forall j s x, prev !! j = Some s -> (x < 2 ^ n)%nat -> r !! (j * 2 ^ n + x)%nat = Some (traverse aes s (take n cws) (N.of_nat x)).
Proof.
  induction n as [|n IH]; intros cws prev Hn.
  - exists prev. split; [done|]. split; [cbn; lia|]. intros j s x Hj Hx. cbn in Hx. replace (j * 2 ^ 0 + x)%nat with j by (cbn; lia). done.
  - destruct cws as [|cw cws]; [cbn in Hn; lia|]. cbn [topLevels].
    set (prev' := concat _).
    assert (Forall (fun l => length l = 2%nat) (map (fun s => [traverseOne aes s cw false; traverseOne aes s cw true]) prev)) as Fl
      by (apply Forall_forall; intros l Hl; apply elem_of_list_fmap in Hl as (? & -> & _); done).
    destruct (IH cws prev') as (r & -> & Lr & Hr); [cbn in Hn; lia|]. exists r. split; [done|].
    assert (length prev' = length prev * 2)%nat as Lp by (unfold prev'; by rewrite (length_concat_fixed _ 2 Fl), map_length).
    split; [rewrite Lr, Lp; cbn; lia|].
    intros j s x Hj Hx. cbn [take traverse]. rewrite take_length, Nat.min_l by (cbn in Hn; lia).
    assert (2 ^ S n = 2 * 2 ^ n)%nat as E2 by (cbn; lia).
    assert (2 ^ n ≠ 0)%nat as N0 by (apply Nat.pow_nonzero; lia).
    pose proof (Nat.div_mod x (2 ^ n) N0) as Hdm. pose proof (Nat.mod_upper_bound x (2 ^ n) N0) as Hm.
    assert (x / 2 ^ n < 2)%nat as Hq by (apply Nat.div_lt_upper_bound; lia).
    assert (N.testbit (N.of_nat x) (N.of_nat n) = (x / 2 ^ n =? 1)%nat) as Hbit.
    { rewrite <- (N.add_0_l (N.of_nat n)), <- N.shiftr_spec', N.shiftr_div_pow2.
      replace (2 ^ N.of_nat n) with (N.of_nat (2 ^ n)) by (by rewrite Nat2N.inj_pow).
      rewrite <- Nat2N.inj_div. destruct (x / 2 ^ n)%nat as [|[|]]; [done|done|lia]. }
    assert (prev' !! (j * 2 + x / 2 ^ n)%nat = Some (traverseOne aes s cw (N.testbit (N.of_nat x) (N.of_nat n)))) as Hp.
    { unfold prev'. rewrite (lookup_concat_fixed _ 2 Fl j (x / 2 ^ n) [traverseOne aes s cw false; traverseOne aes s cw true]); [|by rewrite list_lookup_fmap, Hj|done].
      rewrite Hbit. destruct (x / 2 ^ n)%nat as [|[|]]; [done|done|lia]. }
    pose proof (Hr _ _ (x mod 2 ^ n)%nat Hp Hm) as Hres.
    replace (j * 2 ^ S n + x)%nat with ((j * 2 + x / 2 ^ n) * 2 ^ n + x mod 2 ^ n)%nat by (rewrite E2; lia).
    rewrite Hres. f_equal. apply traverse_low. rewrite take_length, Nat.min_l by (cbn in Hn; lia).
    intros i Hi. replace (N.of_nat (x mod 2 ^ n)) with (N.of_nat x mod 2 ^ N.of_nat n).
    + by rewrite N.mod_pow2_bits_low.
    + rewrite Nat2N.inj_mod, Nat2N.inj_pow. done.
Qed.

(** ** Lanes *)

(** The first [d + 1] entries of the stack belong to leaf [idx]. *)
Definition GoodLane (aes : bool -> N -> N) (dEnd : nat) (root : N) (cws g : list N) (d : N) (idx : N) (l : lane) : Prop :=
  length (lStack l) = S dEnd /\ take dEnd (lCw l) = cws /\ length cws = dEnd /\ lG l = g /\
  forall j, (N.of_nat j <= d) -> (j <= dEnd)%nat ->
    lStack l !! j = Some (traverse aes root (take j cws) (idx / 2 ^ N.of_nat (dEnd - j))).

Lemma laneDown_ok aes dEnd root cws g d idx l : (d < dEnd)%nat ->
  GoodLane aes dEnd root cws g (N.of_nat d) idx l ->
  exists l', laneDown aes d (N.testbit idx (N.of_nat (dEnd - 1 - d))) l = Some l' /\
    GoodLane aes dEnd root cws g (N.of_nat (S d)) idx l'.
Proof.
  intros Hd (L & Hc & Lc & Hg & Hs). unfold laneDown. rewrite (Hs d) by lia.
  destruct (lookup_lt_is_Some_2 cws d) as [cw Hcw]; [lia|].
  assert (lCw l !! d = Some cw) as -> by (rewrite <- Hc in Hcw; by rewrite lookup_take in Hcw).
  destruct (Nat.ltb_spec (S d) (length (lStack l))) as [_|]; [|lia].
  eexists. split; [reflexivity|]. unfold GoodLane. cbn [lStack lCw lG]. rewrite insert_length.
  split; [done|]. split; [done|]. split; [done|]. split; [done|].
  intros j Hj Hj'. destruct (decide (j = S d)) as [->|Hne].
  - rewrite list_lookup_insert by lia. f_equal. rewrite (take_S_r _ _ _ Hcw), traverse_app.
    cbn [length]. change (N.of_nat 1) with 1. rewrite N.div_div by (try apply N.pow_nonzero; done).
    change (2 ^ 1) with 2.
    replace (2 ^ N.of_nat (dEnd - S d) * 2) with (2 ^ N.of_nat (dEnd - d)).
    2:{ replace (N.of_nat (dEnd - d)) with (N.succ (N.of_nat (dEnd - S d))) by lia. rewrite N.pow_succ_r'. lia. }
    cbn [traverse length]. change (N.of_nat 0) with 0.
    assert (N.testbit (idx / 2 ^ N.of_nat (dEnd - S d)) 0 = N.testbit idx (N.of_nat (dEnd - 1 - d))) as ->.
    { rewrite <- N.shiftr_div_pow2, N.shiftr_spec'. f_equal. lia. }
    generalize (N.testbit idx (N.of_nat (dEnd - 1 - d))). intros keep.
    generalize (traverse aes root (take d cws) (idx / 2 ^ N.of_nat (dEnd - d))). intros s. unfold traverseOne, prg.
    f_equal; [|apply N.lxor_comm]. f_equal. apply N.lxor_comm.
  - rewrite list_lookup_insert_ne by lia. apply Hs; lia.
Qed.

Definition GoodLanes (aes : bool -> N -> N) (dEnd : nat) (roots : list (N * list N * list N)) (d idx : N) (ls : list lane) : Prop :=
  Forall2 (fun r l => GoodLane aes dEnd r.1.1 r.1.2 r.2 d idx l) roots ls.

Lemma lanesDown_ok aes dEnd roots d idx ls : (d < dEnd)%nat -> GoodLanes aes dEnd roots (N.of_nat d) idx ls ->
  exists ls', mapM (laneDown aes d (N.testbit idx (N.of_nat (dEnd - 1 - d)))) ls = Some ls' /\
    GoodLanes aes dEnd roots (N.of_nat (S d)) idx ls'.
Proof.
  intros Hd H. induction H as [|r l roots ls Hl _ IH]; [exists []; split; [done|constructor]|].
  destruct (laneDown_ok _ _ _ _ _ _ _ _ Hd Hl) as (l' & El & Hl'). destruct IH as (ls' & Els & Hls').
  exists (l' :: ls'). split; [|by constructor]. cbn [mapM]. rewrite El. cbn. by rewrite Els.
Qed.

Lemma descend_ok aes dEnd roots idx fuel : forall d ls, (d <= dEnd)%nat -> (dEnd - d <= fuel)%nat ->
  GoodLanes aes dEnd roots (N.of_nat d) idx ls ->
  exists ls', descend aes fuel (N.of_nat dEnd) (N.of_nat d) idx ls = Some ls' /\ GoodLanes aes dEnd roots (N.of_nat dEnd) idx ls'.
Proof.
  induction fuel as [|f IH]; intros d ls Hd Hf H; cbn [descend].
  - assert (d = dEnd) as -> by lia. rewrite N.eqb_refl. eauto.
  - destruct (N.eqb_spec (N.of_nat d) (N.of_nat dEnd)) as [E|E].
    + assert (d = dEnd) as -> by lia. eauto.
    + assert (d < dEnd)%nat as Hlt by lia. destruct (lanesDown_ok aes dEnd roots d idx ls Hlt H) as (ls' & El & H').
      rewrite Nat2N.id. replace (N.of_nat dEnd - 1 - N.of_nat d) with (N.of_nat (dEnd - 1 - d)) by lia. rewrite El.
      replace (N.of_nat d + 1) with (N.of_nat (S d)) by lia. apply IH; [lia|lia|done].
Qed.

Lemma xor_small a b n : a < 2 ^ n -> b < 2 ^ n -> N.lxor a b < 2 ^ n.
Proof.
  intros Ha Hb. destruct (decide (N.lxor a b = 0)) as [->|E]; [apply N.neq_0_lt_0, N.pow_nonzero; done|].
  apply N.log2_lt_pow2; [lia|]. eapply N.le_lt_trans; [apply N.log2_lxor|].
  destruct (decide (n = 0)) as [->|].
  { change (2 ^ 0) with 1 in *. assert (a = 0) by lia. assert (b = 0) by lia. subst. done. }
  apply N.max_lub_lt.
  - destruct (decide (a = 0)) as [->|]; [change (N.log2 0) with 0; lia|]. apply N.log2_lt_pow2; lia.
  - destruct (decide (b = 0)) as [->|]; [change (N.log2 0) with 0; lia|]. apply N.log2_lt_pow2; lia.
Qed.

Lemma ascend_ok dEnd idx : idx + 1 < 2 ^ N.of_nat dEnd -> N.of_nat dEnd < 2 ^ 64 ->
  exists d, ascend (N.of_nat dEnd) idx = N.of_nat d /\ (d < dEnd)%nat /\
    forall j, (j <= d)%nat -> (idx + 1) / 2 ^ N.of_nat (dEnd - j) = idx / 2 ^ N.of_nat (dEnd - j).
Proof.
  intros H H64. set (x := N.lxor (idx + 1) idx).
  assert (x ≠ 0) as Hx. { unfold x. rewrite N.lxor_eq_0_iff. lia. }
  assert (x < 2 ^ N.of_nat dEnd) as Hlt by (apply xor_small; lia).
  assert (N.log2 x < N.of_nat dEnd) as Hlog by (apply N.log2_lt_pow2; lia).
  exists (dEnd - N.to_nat (N.log2 x + 1))%nat. split; [|split; [lia|]].
  - unfold ascend. fold x. replace (N.of_nat dEnd + 2 ^ 64 - (N.log2 x + 1)) with (N.of_nat dEnd - (N.log2 x + 1) + 1 * 2 ^ 64) by lia.
    rewrite N.mod_add by done. rewrite N.mod_small by lia. lia.
  - intros j Hj. rewrite <- !N.shiftr_div_pow2. apply N.lxor_eq. rewrite <- N.shiftr_lxor. fold x.
    rewrite N.shiftr_div_pow2. apply N.div_small. eapply N.lt_le_trans; [apply N.log2_spec; lia|].
    apply N.pow_le_mono_r; lia.
Qed.

Lemma GoodLanes_next aes dEnd roots idx ls : idx + 1 < 2 ^ N.of_nat dEnd -> N.of_nat dEnd < 2 ^ 64 ->
  GoodLanes aes dEnd roots (N.of_nat dEnd) idx ls ->
  exists d, ascend (N.of_nat dEnd) idx = N.of_nat d /\ (d <= dEnd)%nat /\ GoodLanes aes dEnd roots (N.of_nat d) (idx + 1) ls.
Proof.
  intros H H64 HG. destruct (ascend_ok dEnd idx H H64) as (d & E & Hd & Hj). exists d. split; [done|]. split; [lia|].
  eapply Forall2_impl; [exact HG|]. intros r l (L & Hc & Lc & Hg & Hs). split; [done|]. split; [done|]. split; [done|].
  split; [done|]. intros j Hj1 Hj2. rewrite Hj by lia. apply Hs; lia.
Qed.

Lemma laneLeaves_ok aes dEnd roots idx ls : GoodLanes aes dEnd roots (N.of_nat dEnd) idx ls ->
  mapM (laneLeaf aes dEnd) ls = Some (map (fun r => leafBytes aes (traverse aes r.1.1 r.1.2 idx) r.2) roots).
Proof.
  induction 1 as [|r l roots ls (L & Hc & Lc & Hg & Hs) _ IH]; [done|]. cbn [mapM map].
  assert (laneLeaf aes dEnd l = Some (leafBytes aes (traverse aes r.1.1 r.1.2 idx) r.2)) as ->.
  { unfold laneLeaf. rewrite (Hs dEnd) by lia. rewrite Nat.sub_diag, Hg. change (2 ^ N.of_nat 0) with 1.
    rewrite N.div_1_r. rewrite take_ge by lia. done. }
  cbn. by rewrite IH.
Qed.

(** ** Positions *)

Lemma xorAll_app l1 l2 : xorAll (l1 ++ l2) = N.lxor (xorAll l1) (xorAll l2).
Proof. induction l1 as [|x l1 IH]; cbn; [by rewrite N.lxor_0_l|]. fold (xorAll (l1 ++ l2)). rewrite IH. unfold xorAll. by rewrite N.lxor_assoc. Qed.
Lemma xorAll_perm l1 l2 : l1 ≡ₚ l2 -> xorAll l1 = xorAll l2.
Proof.
  induction 1 as [|x l1 l2 _ IH|x y l|]; unfold xorAll in *; cbn; try congruence.
  by rewrite <- !N.lxor_assoc, (N.lxor_comm x y).
Qed.

(** Value added by position [p]. *)
Definition term (f : N -> bool) (data : list N) (p : N) : N :=
  if f p then default 0 (data !! N.to_nat p) else 0.

Lemma sumBytes_ok f data n : forall pos i sum, pos + N.of_nat (i + n) <= N.of_nat (length data) ->
  sumBytes data (pos + N.of_nat i) (map (fun i => bit2N (f (pos + N.of_nat i))) (seq i n)) sum
  = Some (N.lxor sum (xorAll (map (fun i => term f data (pos + N.of_nat i)) (seq i n)))).
Proof.
  induction n as [|n IH]; intros pos i sum H; cbn [seq map sumBytes].
  - unfold xorAll. cbn. by rewrite N.lxor_0_r.
  - destruct (lookup_lt_is_Some_2 data (N.to_nat (pos + N.of_nat i))) as [x Hx]; [lia|].
    rewrite (proj2 (readN_Some data (pos + N.of_nat i) x) Hx).
    destruct (N.ltb_spec (bit2N (f (pos + N.of_nat i))) 2) as [_|Hc]; [|destruct (f _); cbn in Hc; lia].
    replace (pos + N.of_nat i + 1) with (pos + N.of_nat (S i)) by lia. rewrite IH by lia.
    unfold xorAll. cbn [foldr]. f_equal. rewrite <- N.lxor_assoc. f_equal. f_equal.
    unfold term. rewrite Hx. destruct (f _); done.
Qed.

Lemma selectXor_positions f data : selectXor f data = xorAll (map (term f data) (allPositions (N.of_nat (length data)))).
Proof.
  unfold selectXor. f_equal. unfold allPositions. rewrite Nat2N.id, map_map.
  apply list_eq. intros i. rewrite list_lookup_imap. destruct (decide (i < length data)%nat) as [L|L].
  - rewrite lookup_map_seq by done. destruct (lookup_lt_is_Some_2 data i L) as [x Hx]. rewrite Hx. cbn.
    unfold term. by rewrite Nat2N.id, Hx.
  - rewrite !lookup_ge_None_2; [done|rewrite map_length, seq_length; lia|lia].
Qed.

(** Positions in the order of the big loop. *)
Definition lanePositions (lanes : nat) (E idx L : nat) : list N :=
  concat (map (fun j => map (fun i => N.of_nat ((j * E + idx) * L + i)) (seq 0 L)) (seq 0 lanes)).
Definition treePositions (lanes : nat) (E L : nat) : list N :=
  concat (map (fun idx => lanePositions lanes E idx L) (seq 0 E)).

Lemma NoDup_concat_map {A B} (f : A -> list B) (l : list A) : NoDup l -> (forall a, a ∈ l -> NoDup (f a)) ->
  (forall a a' b, a ∈ l -> a' ∈ l -> b ∈ f a -> b ∈ f a' -> a = a') -> NoDup (concat (map f l)).
Proof.
  induction l as [|a l IH]; intros ND N1 D; [constructor|]. apply NoDup_cons in ND as [Hn ND].
  cbn. apply NoDup_app. split; [apply N1; left|]. split.
  - intros b Hb Hc. apply elem_of_concat in Hc as (l' & Hb' & Hl'). apply elem_of_list_fmap in Hl' as (a' & -> & Ha').
    apply Hn. rewrite (D a a' b); [done|left|by right|done|done].
  - apply IH; [done| |].
    + intros; apply N1; by right.
    + intros a1 a2 b ? ?. apply D; by right.
Qed.

Lemma elem_lanePositions lanes E idx L p : p ∈ lanePositions lanes E idx L <->
  exists j i, (j < lanes)%nat /\ (i < L)%nat /\ p = N.of_nat ((j * E + idx) * L + i).
Proof.
  unfold lanePositions. rewrite elem_of_concat. split.
  - intros (l & Hp & Hl). apply elem_of_list_fmap in Hl as (j & -> & Hj). apply elem_of_list_fmap in Hp as (i & -> & Hi).
    apply elem_of_seq in Hj, Hi. exists j, i. split; [lia|]. split; [lia|done].
  - intros (j & i & Hj & Hi & ->). eexists. split; [|apply elem_of_list_fmap; exists j; split; [reflexivity|apply elem_of_seq; lia]].
    apply elem_of_list_fmap. exists i. split; [done|]. apply elem_of_seq. lia.
Qed.

Lemma decomp L a i b i' : (i < L)%nat -> (i' < L)%nat -> (a * L + i = b * L + i')%nat -> a = b /\ i = i'.
Proof.
  intros Hi Hi' H. assert (a = b) as ->; [|lia].
  destruct (Nat.lt_trichotomy a b) as [X|[X|X]]; [|done|]; exfalso; nia.
Qed.

Lemma treePositions_perm lanes E L : treePositions lanes E L ≡ₚ allPositions (N.of_nat (lanes * E * L)).
Proof.
  apply list.NoDup_Permutation.
  - apply NoDup_concat_map; [apply NoDup_seq| |].
    + intros idx HE. apply elem_of_seq in HE. apply NoDup_concat_map; [apply NoDup_seq| |].
      * intros j _. apply NoDup_fmap_2; [|apply NoDup_seq]. intros i i' H. lia.
      * intros j j' p Hj Hj' Hp Hp'. apply elem_of_list_fmap in Hp as (i & -> & Hi). apply elem_of_list_fmap in Hp' as (i' & Heq & Hi').
        apply elem_of_seq in Hi, Hi'. apply Nat2N.inj in Heq. apply decomp in Heq as [Heq _]; [|lia|lia].
        apply decomp in Heq as [-> _]; [done|lia|lia].
    + intros idx idx' p H1 H2 Hp Hp'. apply elem_of_seq in H1, H2.
      apply elem_lanePositions in Hp as (j & i & Hj & Hi & ->). apply elem_lanePositions in Hp' as (j' & i' & Hj' & Hi' & Heq).
      apply Nat2N.inj in Heq. apply decomp in Heq as [Heq _]; [|lia|lia]. apply decomp in Heq as [_ ->]; [done|lia|lia].
  - apply NoDup_fmap_2; [intros a b H; lia|apply NoDup_seq].
  - intros p. unfold treePositions, allPositions. rewrite elem_of_concat, elem_of_list_fmap. split.
    + intros (l & Hp & Hl). apply elem_of_list_fmap in Hl as (idx & -> & Hidx). apply elem_of_seq in Hidx.
      apply elem_lanePositions in Hp as (j & i & Hj & Hi & ->). eexists. split; [reflexivity|]. apply elem_of_seq.
      rewrite Nat2N.id. split; [lia|].
      assert (j * E + idx + 1 <= lanes * E)%nat by nia. assert ((j * E + idx + 1) * L <= lanes * E * L)%nat by (by apply Nat.mul_le_mono_r). lia.
    + intros (q & -> & Hq). apply elem_of_seq in Hq. rewrite Nat2N.id in Hq.
      assert (L ≠ 0)%nat by (intros ->; lia). assert (E ≠ 0)%nat by (intros ->; lia).
      pose proof (Nat.div_mod q L ltac:(done)) as D1. pose proof (Nat.div_mod (q / L) E ltac:(done)) as D2.
      pose proof (Nat.mod_upper_bound q L ltac:(done)) as M1. pose proof (Nat.mod_upper_bound (q / L) E ltac:(done)) as M2.
      assert (q / L < lanes * E)%nat as B1 by (apply Nat.div_lt_upper_bound; lia).
      assert (q / L / E < lanes)%nat as B2 by (apply Nat.div_lt_upper_bound; lia).
      exists (lanePositions lanes E (q / L mod E) L). split.
      * apply elem_lanePositions. exists (q / L / E)%nat, (q mod L)%nat. split; [done|]. split; [done|]. f_equal.
        rewrite D1 at 1. f_equal. rewrite Nat.mul_comm. f_equal. lia.
      * apply elem_of_list_fmap. exists (q / L mod E)%nat. split; [done|]. apply elem_of_seq. lia.
Qed.
