(** Proofs about complete runs with the big polynomial. *)
From Verif Require Import Base Partition_Model Ecdh_Model File_Model File_Spec Balanced_Model Prty_Model Prty_Spec PolyTree_Model PolyTree_Spec PolyBig_Model PolyBig_Spec PolyBig_Proofs PrtyDiff_Model PrtyDiff_Spec PrtyDiff_Proofs PrtyDiff_Proofs2 BigRun_Model BigRun_Spec.
From Verif Require Prty_Proofs.
Local Open Scope nat_scope.

(** * The rows *)
Lemma last_bytes n : let F := N.of_nat (fieldSizeOf n) in (F - 384 <= 8 * (lastBytes F - 16) /\ F - 256 <= 8 * lastBytes F)%N.
Proof. cbn zeta. unfold fieldSizeOf. repeat match goal with |- context [if ?c then _ else _] => destruct c end; vm_compute; split; discriminate. Qed.
Lemma slice_back n a b c d junk : let F := fieldSizeOf n in (c < 2 ^ 128)%N -> (d < 2 ^ (N.of_nat F - 384))%N ->
  rowOf F junk (sliceVal F 0 [a; b; c; d]) (sliceVal F 1 [a; b; c; d]) (sliceVal F 2 [a; b; c; d]) = [a; b; c; (d + 2 ^ (8 * (lastBytes (N.of_nat F) - 16)) * junk)%N].
Proof.
  cbn zeta. intros Hc Hd. destruct (last_bytes n) as [H1 H2]. pose proof (Prty_Proofs.fieldSize_range n) as HF. set (F := fieldSizeOf n) in *.
  assert (256 ^ (lastBytes (N.of_nat F) - 16) = 2 ^ (8 * (lastBytes (N.of_nat F) - 16)))%N as E1 by (rewrite N.pow_mul_r; done).
  assert (c + 2 ^ 128 * d < lastLim F)%N as Hl.
  { unfold lastLim. change 256%N with (2 ^ 8)%N. rewrite <- N.pow_mul_r. apply N.lt_le_trans with (2 ^ (N.of_nat F - 256))%N; [|apply N.pow_le_mono_r; lia].
    replace (N.of_nat F - 256)%N with (128 + (N.of_nat F - 384))%N by lia. rewrite N.pow_add_r. set (A := (2 ^ 128)%N) in *. set (B := (2 ^ (N.of_nat F - 384))%N) in *. clearbody A B. nia. }
  unfold rowOf, sliceVal. cbn [nth]. rewrite (N.mod_small _ _ Hl). rewrite E1. assert (2 ^ 128 <> 0)%N as Hz by (apply N.pow_nonzero; lia). f_equal. f_equal. f_equal; [|f_equal].
  - rewrite N.mul_comm, N.mod_add by done. by apply N.mod_small.
  - f_equal. rewrite N.mul_comm, N.div_add by done. rewrite (N.div_small c) by done. lia.
Qed.
Lemma low_bits x j n k : (k < n)%N -> N.testbit (x + 2 ^ n * j) k = N.testbit x k.
Proof. intros H. rewrite <- (N.mod_pow2_bits_low (x + 2 ^ n * j) n k H), <- (N.mod_pow2_bits_low x n k H). f_equal. rewrite N.mul_comm. apply N.mod_add. apply N.pow_nonzero. lia. Qed.
Lemma choice_high P F j k : (128 <= k)%N -> N.testbit (choiceBlk P F j) k = false.
Proof.
  intros Hk. unfold choiceBlk, choiceCols. assert (Forall (fun i => i < 128) (columns F (128 * j))) as Hf. { apply Forall_forall. intros i Hi. unfold columns in Hi. apply elem_of_seq in Hi. lia. }
  induction Hf as [|i l Hi Hl IH]; [done|]. cbn [foldr]. rewrite N.lor_spec, IH. cbn [orb]. destruct (choice P (i + 128 * j)); [|done]. apply N.pow2_bits_false. lia.
Qed.
Lemma junk_masked P F d n j : (N.of_nat F - 384 <= n)%N -> N.land (d + 2 ^ n * j) (choiceBlk P F 3) = N.land d (choiceBlk P F 3).
Proof.
  intros Hn. apply N.bits_inj. intros k. rewrite !N.land_spec. destruct (N.lt_ge_cases k n) as [Hk|Hk]; [by rewrite low_bits|].
  replace (N.testbit (choiceBlk P F 3) k) with false; [by rewrite !andb_false_r|]. symmetry. destruct (N.lt_ge_cases k 128) as [H1|H1]; [|by apply choice_high].
  rewrite <- (N2Nat.id k). rewrite Prty_Proofs.choiceBlk_bit by lia. apply andb_false_iff. left. apply Nat.ltb_ge. lia.
Qed.
Lemma mask_back P n junk x : let F := fieldSizeOf n in
  sendMask P F (rowOf F junk (sliceVal F 0 (bigRow P F x)) (sliceVal F 1 (bigRow P F x)) (sliceVal F 2 (bigRow P F x))) x = recvMask P F x.
Proof.
  cbn zeta. pose proof (Prty_Proofs.fieldSize_range n) as HF. destruct (last_bytes n) as [Hlb _]. destruct (Prty_Proofs.row_fits P (fieldSizeOf n) x HF) as (a & b & c & d & Er & _ & _ & Hc & Hd).
  rewrite <- (Prty_Proofs.masks_agree P _ _ x eq_refl). fold (bigRow P (fieldSizeOf n) x) in Er |- *. rewrite Er. rewrite slice_back by done. unfold sendMask. f_equal. f_equal. f_equal.
  cbn [seq map zip_with]. by rewrite junk_masked.
Qed.

(** * The masks are blocks *)
Lemma lxor_lt a b n : (a < 2 ^ n -> b < 2 ^ n -> N.lxor a b < 2 ^ n)%N.
Proof.
  intros Ha Hb. apply Prty_Proofs.lt_pow_bits. intros k Hk. rewrite N.lxor_spec.
  assert (forall c, (c < 2 ^ n)%N -> N.testbit c k = false) as H by (intros c Hc; destruct (N.eq_dec c 0) as [->|H0]; [apply N.bits_0|apply N.bits_above_log2; apply N.log2_lt_pow2 in Hc; lia]).
  by rewrite !H.
Qed.
Lemma mask_lt P r : (forall x, henc P x < 2 ^ 128)%N -> (maskOfRow P r < 2 ^ 128)%N.
Proof. intros H. unfold maskOfRow. induction r as [|a r IH]; [by apply N.neq_0_lt_0, N.pow_nonzero|]. cbn [map foldr]. apply lxor_lt; [apply H|exact IH]. Qed.

(** * One message after the other *)
Lemma encode_bytes h b size ms buf : h <= 16 -> encode h b size ms = Done buf -> Forall (fun x => (x < 256)%N) buf.
Proof.
  intros Hh E. destruct ms as [|m ms]; [done|]. rewrite encode_ok in E by done. destruct (_ <=? _); [|done]. injection E as <-. apply Forall_app. split; [|by apply Forall_replicate].
  unfold streamBytes. apply Forall_app. split; [apply bytesLE_bytes|]. clear. revert m. induction ms as [|m' ms IH]; intros m; [constructor|]. cbn [tailBytes]. apply Forall_app. split; [|apply IH].
  destruct (escaped h m m'); [|apply bytesLE_bytes]. apply Forall_app. split; [by apply Forall_replicate|apply bytesLE_bytes].
Qed.
Lemma around_holds buf g : Forall (fun x => (x < 256)%N) buf -> (forall i, (g i < 256)%N) -> holdsBuf (around buf g) buf.
Proof.
  intros Hb Hg. split.
  - intros i. unfold around. destruct (Nat.ltb_spec i (length buf)) as [Hi|Hi]; [|apply Hg]. rewrite Forall_forall in Hb. apply Hb. apply elem_of_list_In. by apply nth_In.
  - intros i x Hi. unfold around. pose proof (lookup_lt_Some _ _ _ Hi). replace (i <? length buf) with true by (symmetry; by apply Nat.ltb_lt). by apply nth_lookup_Some.
Qed.
Section msgs.
Context (h b : nat) (es : list (N * nat)) (sorted : list N) (g1 g2 : N).
Context (H4 : 4 <= h) (H16 : h <= 16) (Hhb : h <= b) (Hkeys : NoDup (map (fun e : N * nat => key32 e.1) es)) (Hblk : Forall (fun m => (m < 2 ^ 128)%N) sorted).
Lemma recv_msgs mem ss msgs k : (forall k i, (mem k i < 256)%N) -> Forall2 (fun p m => encode h b (bufSize p.2 h) (take (p.2 + 1) (drop p.1 sorted)) = Done m) ss msgs ->
  (forall s c, (s, c) ∈ ss -> s + c < length sorted /\ b + h * c + b * escapes h (take (c + 1) (drop s sorted)) < bufSize c h /\ distinctLow h (take (c + 1) (drop s sorted))) ->
  exists l, recvMsgs h b g1 g2 (emplace32 es []) mem ss msgs k = Done l /\
    (forall e s c, e ∈ es -> (s, c) ∈ ss -> e.1 ∈ take (c + 1) (drop s sorted) -> e.2 ∈ l) /\
    (forall i, i ∈ l -> exists e, e ∈ es /\ e.2 = i /\ ((exists m, m ∈ sorted /\ low h m = low h e.1) \/ low b e.1 = 0%N)).
Proof using H4 H16 Hhb Hkeys Hblk.
  intros Hm HF. revert k. induction HF as [|[s c] buf ss msgs E HF IH]; intros k Hss.
  - exists []. split; [done|]. split; [|by intros i ?%elem_of_nil]. intros e s c _ Hin. by apply elem_of_nil in Hin.
  - cbn [fst snd] in E. destruct (Hss s c ltac:(left)) as (Hsc & Hroom & Hdl). set (ms := take (c + 1) (drop s sorted)) in *.
    assert (length ms = c + 1) as El by (unfold ms; rewrite take_length, drop_length; lia).
    assert (Forall (fun m => (m < 2 ^ 128)%N) ms) as Hms by (unfold ms; by apply Forall_take, Forall_drop).
    assert (length (streamBytes h b ms) < bufSize c h) as Hlen. { destruct ms as [|m ms0]; [cbn in El; lia|]. rewrite stream_len. cbn [length] in El. replace (length ms0) with c by lia. done. }
    destruct (match_ok (around buf (mem k)) h b (bufSize c h) ms buf g1 g2 es H4 H16 Hhb Hms Hdl E (around_holds _ _ (encode_bytes _ _ _ _ _ H16 E) (Hm k)) Hkeys) as (vs & Ed & Hc & Hs).
    destruct (IH (S k)) as (l & El' & Hc' & Hs'); [intros s' c' Hin; apply Hss; by right|]. cbn [recvMsgs]. rewrite Ed, El'. eexists. split; [done|]. split.
    + intros e s' c' He Hin Hmem. apply elem_of_app. apply elem_of_cons in Hin as [Heq|Hin]; [|right; by eapply Hc']. injection Heq as -> ->. left. apply Hc; [done|]. rewrite El.
      replace (_ <? _) with true by (symmetry; by apply Nat.ltb_lt). rewrite take_ge by lia. exact Hmem.
    + intros i [Hi|Hi]%elem_of_app; [|by apply Hs']. destruct (Hs i Hi) as (e & He & Hei & Hor). exists e. split; [done|]. split; [done|]. destruct Hor as [(m & Hin & Hl)|Hz]; [left|by right]. exists m. split; [|done].
      unfold ms in Hin. apply elem_of_take in Hin as (j & Hj & _). rewrite lookup_drop in Hj. by eapply elem_of_list_lookup_2.
Qed.
Lemma steps_in step T t ss s c : 0 < step -> t < T -> diffSteps step (length sorted) T t = Some ss -> (s, c) ∈ ss -> s + c < length sorted.
Proof using.
  clear. intros Hs Ht E Hin. unfold diffSteps in E. set (e := Nat.min (length sorted * (t + 1) / T) (length sorted)) in *. destruct (Nat.eqb_spec e 0) as [|He]; [done|]. injection E as <-.
  assert (e <= length sorted) as Hle by (unfold e; lia). clearbody e. revert Hin. generalize (e - length sorted * t / T) as fuel. generalize (length sorted * t / T) as i. intros i fuel. revert i.
  induction fuel as [|f IH]; intros i Hin; [by apply elem_of_nil in Hin|]. cbn [stepsFrom] in Hin. destruct (Nat.ltb_spec i (e - 1)) as [Hi|Hi]; [|by apply elem_of_nil in Hin].
  apply elem_of_cons in Hin as [Heq|Hin]; [injection Heq as -> ->; lia|by eapply IH].
Qed.
Lemma exchange_all e step T ts : eG1 e = g1 -> eG2 e = g2 -> (forall t k i, (eMem e t k i < 256)%N) -> 0 < step -> 0 < T -> 2 * T <= length sorted -> Forall (fun t => t < T) ts -> stepsFine h b step T sorted ->
  exists l, exchangeMasks e h b step T (emplace32 es []) sorted ts = Done l /\
    (forall e0 t ss s c, e0 ∈ es -> t ∈ ts -> diffSteps step (length sorted) T t = Some ss -> (s, c) ∈ ss -> e0.1 ∈ take (c + 1) (drop s sorted) -> e0.2 ∈ l) /\
    (forall i, i ∈ l -> exists e, e ∈ es /\ e.2 = i /\ ((exists m, m ∈ sorted /\ low h m = low h e.1) \/ low b e.1 = 0%N)).
Proof using H4 H16 Hhb Hkeys Hblk.
  intros G1 G2 Hm Hst HT Hn Hts Hfine. induction Hts as [|t ts Ht Hts IH].
  - exists []. split; [done|]. split; [|by intros i ?%elem_of_nil]. intros e0 t ss s c _ Hin. by apply elem_of_nil in Hin.
  - destruct IH as (l' & El' & Hc' & Hs'). destruct (proj1 (steps_cover step (length sorted) T Hst HT Hn) t Ht) as [ss Ess].
    assert (forall s c, (s, c) ∈ ss -> s + c < length sorted /\ b + h * c + b * escapes h (take (c + 1) (drop s sorted)) < bufSize c h /\ distinctLow h (take (c + 1) (drop s sorted))) as Hss.
    { intros s c Hin. split; [exact (steps_in step T t ss s c Hst Ht Ess Hin)|exact (Hfine t ss s c Ht Ess Hin)]. }
    destruct (proj2 (big_ok h b step T t sorted) ss Ess) as [[(s & c & Hin & Eub) _]|(msgs & Esend & HF)].
    { exfalso. destruct (Hss s c Hin) as (Hlt & Hroom & _). rewrite encode_exact in Eub; [|done|rewrite take_length, drop_length; lia].
      replace (length (take (c + 1) (drop s sorted)) - 1) with c in Eub by (rewrite take_length, drop_length; lia). replace (_ <=? _) with true in Eub by (symmetry; apply Nat.leb_le; lia). done. }
    destruct (recv_msgs (eMem e t) ss msgs 0 (Hm t) HF Hss) as (l & El & Hc & Hs). exists (l ++ l'). cbn [exchangeMasks]. rewrite Esend. unfold recvBig. rewrite Ess, G1, G2, El, El'. split; [done|]. split.
    + intros e0 t0 ss0 s c He0 Hin Ess0 Hin0 Hmem. apply elem_of_app. apply elem_of_cons in Hin as [->|Hin]; [left; rewrite Ess in Ess0; injection Ess0 as <-; by eapply Hc|right; by eapply Hc'].
    + intros i [Hi|Hi]%elem_of_app; [by apply Hs|by apply Hs'].
Qed.
End msgs.

(** * The run *)
Lemma hb_range n1 n2 : (2 <= n1 <= n2)%N -> (n1 < 2 ^ 64)%N -> 4 <= hBytes n1 /\ hBytes n1 <= 16 /\ hBytes n1 <= bBytes n1 n2.
Proof.
  intros Hn Hlt. unfold hBytes, bBytes. assert (N.log2 n1 < 64)%N as HL by (apply N.log2_lt_pow2; lia). assert (1 <= N.log2 n1)%N as HL1 by (apply N.log2_le_pow2; [lia|]; cbn; lia).
  assert ((49 + N.log2 n1) / 8 <= (40 + N.log2 (n1 * n2) + 7) / 8)%N as Hb.
  { assert (N.log2 n1 + N.log2 n2 <= N.log2 (n1 * n2))%N as Hm by (apply N.log2_mul_below; lia). assert (N.log2 n1 <= N.log2 n2)%N as Hle by (apply N.log2_le_mono; lia).
    destruct (N.eq_dec (N.log2 n1) 1) as [E|E]; [rewrite E; change ((49 + 1) / 8)%N with (49 / 8)%N; apply N.div_le_mono; [done|lia]|apply N.div_le_mono; [done|lia]]. }
  assert (6 <= (49 + N.log2 n1) / 8 <= 14)%N as Hr. { split; [apply N.div_le_lower_bound; [done|lia]|]. apply N.lt_succ_r. apply N.div_lt_upper_bound; [done|]. lia. }
  lia.
Qed.
Lemma slice_done s p lim k1 k2 k3 xs ys zs : NoDup xs -> sliceGood s p lim xs ys -> Forall (fun y => (y < lim)%N) ys -> 2 * 2 ^ k1 <= length xs -> 2 * 2 ^ k2 <= length xs -> 2 * 2 ^ k3 <= length xs -> length xs <= length zs ->
  exists out, runSlice s lim (2 ^ k1) (2 ^ k2) (2 ^ k3) xs ys zs = Done out /\ forall i j x, xs !! i = Some x -> zs !! j = Some x -> j < length xs -> out !! j = ys !! i.
Proof.
  intros Hnd (HM & Hp & Ho1 & Ho2 & q & Hq & Hlq & Hc & Ht) Hy H1 H2 H3 Hz. destruct (exchange_ok _ _ _ _ HM lim (sSch s) k1 k2 k3 (sOld1 s) (sOld2 s) xs ys zs q) as (out & E & _ & Hout & _); [done..|].
  exists out. split; [exact E|exact Hout].
Qed.
Lemma vals_lt P n xs j : let F := fieldSizeOf n in Forall (fun y => (y < if (j <? 2)%nat then 2 ^ 128 else lastLim F)%N) (valsOf P F j xs).
Proof.
  cbn zeta. apply Forall_fmap. apply Forall_true. intros x. unfold compose. cbn beta. destruct (Prty_Proofs.row_fits P (fieldSizeOf n) x (Prty_Proofs.fieldSize_range n)) as (a & b & c & d & Er & Ha & Hb & Hc & Hd).
  unfold bigRow. rewrite Er. destruct j as [|[|j]]; cbn [sliceVal nth]; [exact Ha|exact Hb|]. apply N.mod_lt. unfold lastLim. by apply N.pow_nonzero.
Qed.
Lemma entries_keys P F xs : map (fun e : N * nat => key32 e.1) (bigEntries P F xs) = map (fun x => key32 (recvMask P F x)) xs.
Proof. unfold bigEntries. assert (forall f : nat -> N -> N * nat, (forall i x, (f i x).1 = recvMask P F x) -> map (fun e => key32 e.1) (imap f xs) = map (fun x => key32 (recvMask P F x)) xs) as G.
  { induction xs as [|x xs IH]; intros f Hf; [done|]. cbn [imap map]. f_equal; [by rewrite Hf|]. apply IH. intros i y. apply Hf. }
  by apply G.
Qed.
Lemma nth_of (l : list N) j v : l !! j = Some v -> nth j l 0%N = v.
Proof. intros H. by apply nth_lookup_Some. Qed.
Lemma run_ok P e a0 a1 a2 p0 p1 p2 step k xs zs : let n1 := N.of_nat (length xs) in let n2 := N.of_nat (length zs) in let F := fieldSizeOf n1 in let h := hBytes n1 in let b := bBytes n1 n2 in
  NoDup xs -> length xs <= length zs -> (n1 < 2 ^ 64)%N -> 2 * 2 ^ k <= length xs -> 0 < step -> envOk e -> (forall x, henc P x < 2 ^ 128)%N ->
  sliceGood a0 p0 (2 ^ 128) xs (valsOf P F 0 xs) -> sliceGood a1 p1 (2 ^ 128) xs (valsOf P F 1 xs) -> sliceGood a2 p2 (lastLim F) xs (valsOf P F 2 xs) ->
  NoDup (map (fun x => key32 (recvMask P F x)) xs) ->
  exists o0 o1 o2, runSlice a0 (2 ^ 128) (2 ^ k) (2 ^ k) (2 ^ k) xs (valsOf P F 0 xs) zs = Done o0 /\ runSlice a1 (2 ^ 128) (2 ^ k) (2 ^ k) (2 ^ k) xs (valsOf P F 1 xs) zs = Done o1 /\
    runSlice a2 (lastLim F) 1 (2 ^ k) 1 xs (valsOf P F 2 xs) zs = Done o2 /\
    let gh := bigMasks P F (eJunk e) o0 o1 o2 zs in
    (forall j x, j < length xs -> zs !! j = Some x -> x ∈ xs -> gh !! j = Some (recvMask P F x)) /\
    (stepsFine h b step (2 ^ k) (eSort e gh) -> exists out, bigRun P e a0 a1 a2 step (2 ^ k) xs zs = Done out /\
      (forall i j x, xs !! i = Some x -> zs !! j = Some x -> j < length xs -> i ∈ out) /\
      (forall i, i ∈ out -> exists x, xs !! i = Some x /\ ((exists m, m ∈ gh /\ low h m = low h (recvMask P F x)) \/ low b (recvMask P F x) = 0%N))).
Proof.
  cbn zeta. intros Hnd Hz Hn64 Hk Hst (HeI & HeS & HeM) Hhe Hs0 Hs1 Hs2 Hkeys. set (n1 := N.of_nat (length xs)) in *. set (n2 := N.of_nat (length zs)) in *. set (F := fieldSizeOf n1) in *.
  assert (2 * 2 ^ 0 <= length xs) as H1. { cbn. pose proof (Nat.pow_nonzero 2 k). lia. }
  destruct (slice_done a0 p0 (2 ^ 128) k k k xs (valsOf P F 0 xs) zs Hnd Hs0 (vals_lt P n1 xs 0) Hk Hk Hk Hz) as (o0 & E0 & V0).
  destruct (slice_done a1 p1 (2 ^ 128) k k k xs (valsOf P F 1 xs) zs Hnd Hs1 (vals_lt P n1 xs 1) Hk Hk Hk Hz) as (o1 & E1 & V1).
  destruct (slice_done a2 p2 (lastLim F) 0 k 0 xs (valsOf P F 2 xs) zs Hnd Hs2 (vals_lt P n1 xs 2) H1 Hk H1 Hz) as (o2 & E2 & V2).
  change (2 ^ 0) with 1 in E2. exists o0, o1, o2. split; [exact E0|]. split; [exact E1|]. split; [exact E2|]. set (gh := bigMasks P F (eJunk e) o0 o1 o2 zs).
  assert (length gh = length zs) as Hgl by (unfold gh, bigMasks; apply imap_length).
  assert (forall j x, j < length xs -> zs !! j = Some x -> x ∈ xs -> gh !! j = Some (recvMask P F x)) as Hgh.
  { intros j x Hj Hzj Hx. apply elem_of_list_lookup in Hx as [i Hi]. unfold gh, bigMasks. rewrite list_lookup_imap, Hzj. cbn [fmap option_fmap option_map]. f_equal.
    rewrite (nth_of o0 j (sliceVal F 0 (bigRow P F x))) by (rewrite (V0 i j x Hi Hzj Hj); unfold valsOf; by rewrite list_lookup_fmap, Hi).
    rewrite (nth_of o1 j (sliceVal F 1 (bigRow P F x))) by (rewrite (V1 i j x Hi Hzj Hj); unfold valsOf; by rewrite list_lookup_fmap, Hi).
    rewrite (nth_of o2 j (sliceVal F 2 (bigRow P F x))) by (rewrite (V2 i j x Hi Hzj Hj); unfold valsOf; by rewrite list_lookup_fmap, Hi).
    apply mask_back. }
  split; [exact Hgh|]. intros Hfine. pose proof (Nat.pow_nonzero 2 k ltac:(lia)) as HT0.
  destruct (hb_range n1 n2) as (H4 & H16 & Hhb); [unfold n1, n2; lia|exact Hn64|].
  assert (Forall (fun m => (m < 2 ^ 128)%N) (eSort e gh)) as Hblk.
  { apply Forall_forall. intros m Hm. rewrite (HeS gh) in Hm. unfold gh, bigMasks in Hm. apply elem_of_lookup_imap in Hm as (j & z & -> & _). unfold sendMask. by apply mask_lt. }
  assert (eIns e (bigEntries P F xs) ≡ₚ bigEntries P F xs) as HP by apply HeI.
  assert (NoDup (map (fun e : N * nat => key32 e.1) (eIns e (bigEntries P F xs)))) as Hk2. { rewrite HP. by rewrite entries_keys. }
  destruct (exchange_all (hBytes n1) (bBytes n1 n2) (eIns e (bigEntries P F xs)) (eSort e gh) (eG1 e) (eG2 e) H4 H16 Hhb Hk2 Hblk e step (2 ^ k) (seq 0 (2 ^ k)) eq_refl eq_refl HeM Hst) as (out & Eo & Hc & Hs).
  { lia. } { rewrite (HeS gh), Hgl. lia. } { apply Forall_forall. intros t Ht. apply elem_of_seq in Ht. lia. } { exact Hfine. }
  exists out. split.
  { unfold bigRun. fold n1 n2 F. fold (valsOf P F 0 xs) (valsOf P F 1 xs) (valsOf P F 2 xs). rewrite E0, E1, E2. fold gh. exact Eo. }
  split.
  - intros i j x Hi Hj Hlt. assert ((recvMask P F x, i) ∈ eIns e (bigEntries P F xs)) as Hin. { rewrite HP. unfold bigEntries. apply elem_of_lookup_imap. by exists i, x. }
    pose proof (Hgh j x Hlt Hj (elem_of_list_lookup_2 _ _ _ Hi)) as Hg. assert (recvMask P F x ∈ eSort e gh) as Hm by (rewrite (HeS gh); by eapply elem_of_list_lookup_2).
    apply elem_of_list_lookup in Hm as [q Hq]. assert (q < length (eSort e gh)) as Hql by by eapply lookup_lt_Some.
    destruct (proj2 (steps_cover step (length (eSort e gh)) (2 ^ k) Hst ltac:(lia) ltac:(rewrite (HeS gh), Hgl; lia)) q Hql) as (t & ss & s & c & Ht & Ess & Hsc & Hr & _).
    apply (Hc (recvMask P F x, i) t ss s c Hin); [apply elem_of_seq; lia|exact Ess|exact Hsc|]. cbn [fst]. apply elem_of_list_lookup. exists (q - s). rewrite lookup_take by lia. rewrite lookup_drop. by replace (s + (q - s)) with q by lia.
  - intros i Hi. destruct (Hs i Hi) as (e0 & He0 & <- & Hor). rewrite HP in He0. unfold bigEntries in He0. apply elem_of_lookup_imap in He0 as (i & x & -> & Hx). cbn [fst snd] in Hor |- *. exists x. split; [exact Hx|].
    destruct Hor as [(m & Hm & El)|Hzero]; [left|by right]. exists m. split; [|exact El]. by rewrite (HeS gh) in Hm.
Qed.
