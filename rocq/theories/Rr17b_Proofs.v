(** Lemmas about RR17b. *)
From Verif Require Import Base Bgi_Proofs Tools_Spec Partition_Model Partition_Proofs File_Model File_Spec File_Proofs Dcw_Spec Dcw_Proofs Ecdh_Proofs Rr17_Model Rr17_Proofs.
From Verif Require Rr17a_Model Rr17a_Spec Rr17a_Proofs.
From Verif Require Import Rr17b_Model Rr17b_Spec.

Local Arguments bytesLE : simpl never.
Local Arguments setSize : simpl never.
Local Arguments otInput : simpl never.
Local Arguments itemBin : simpl never.

(** ** Scanning *)

Fixpoint findSlots (try : N -> N -> option nat) (b : list N) (k : nat) : option nat :=
  match k with
  | O => None
  | S k' => match try (leBytes (take 4 b)) (leBytes (take 16 (drop 4 b))) with Some i => Some i | None => findSlots try (drop 20 b) k' end
  end.
Definition rowMatch (try : N -> N -> N -> option nat) (cap : nat) (b : list N) : option nat :=
  findSlots (try (leBytes (take 20 b))) (drop 20 b) cap.

Lemma getLe_ok msg o n : (o + n <= length msg)%nat -> getLe msg o n = Some (leBytes (take n (drop o msg))).
Proof. intros H. unfold getLe. assert ((o + n <=? length msg)%nat = true) as ->; [by apply Nat.leb_le|done]. Qed.

Lemma scanSlots_eq try msg left : forall iter, (iter + 20 * left <= length msg)%nat ->
  scanSlots try msg left iter = Done ((iter + 20 * left)%nat, findSlots try (drop iter msg) left).
Proof.
  induction left as [|left IH]; intros iter H; [cbn [scanSlots findSlots]; f_equal; f_equal; lia|]. cbn [scanSlots findSlots].
  rewrite !getLe_ok by lia. cbv zeta. assert ((length msg <? iter + 20)%nat = false) as -> by (apply Nat.ltb_ge; lia). rewrite drop_drop.
  destruct (try _ _) as [i|]; [f_equal; f_equal; lia|]. rewrite IH by lia. rewrite drop_drop. f_equal. f_equal. lia.
Qed.

Lemma scanItems_eq try cap msg count : forall iter, (iter + count * setSize cap <= length msg)%nat ->
  scanItems try cap msg count iter = Done ((iter + count * setSize cap)%nat, omap (fun j => rowMatch try cap (drop (iter + j * setSize cap) msg)) (seq 0 count)).
Proof.
  induction count as [|count IH]; intros iter H; cbn [scanItems]; [by rewrite Nat.add_0_r|].
  assert (setSize cap = 20 * cap + 20)%nat as ES by done. rewrite getLe_ok by lia. rewrite scanSlots_eq by lia. rewrite IH by lia.
  cbn [seq]. rewrite <- seq_shift. cbn [omap list_omap]. rewrite Nat.mul_0_l, Nat.add_0_r.
  assert (omap (fun j => rowMatch try cap (drop (iter + 20 + 20 * cap + j * setSize cap) msg)) (seq 0 count) =
    omap (fun j => rowMatch try cap (drop (iter + j * setSize cap) msg)) (map S (seq 0 count))) as ->.
  { rewrite omap_map. apply omap_ext_in. intros j _. f_equal. f_equal. lia. }
  set (rest := omap _ (map S (seq 0 count))). clearbody rest. unfold rowMatch. rewrite drop_drop. replace (iter + 20 + 20 * cap + count * setSize cap)%nat with (iter + S count * setSize cap)%nat by lia. destruct (findSlots _ _ _); done.
Qed.

Lemma findSlots_app try b b' k : (20 * k <= length b)%nat -> findSlots try (b ++ b') k = findSlots try b k.
Proof.
  revert b. induction k as [|k IH]; intros b H; [done|]. cbn [findSlots]. rewrite !drop_app_le, !take_app_le by (rewrite ?drop_length; lia).
  destruct (try _ _); [done|]. apply IH. rewrite drop_length. lia.
Qed.
Lemma rowMatch_app try cap b b' : length b = setSize cap -> rowMatch try cap (b ++ b') = rowMatch try cap b.
Proof.
  intros H. unfold setSize in H. unfold rowMatch. rewrite drop_app_le, take_app_le by lia. apply findSlots_app. rewrite drop_length. lia.
Qed.

(** Rows of equal length. *)
Lemma concat_rows_length {A} (rows : list (list A)) m : Forall (fun r => length r = m) rows -> length (concat rows) = (length rows * m)%nat.
Proof. induction 1 as [|r rows H _ IH]; [done|]. cbn. rewrite app_length, IH, H. done. Qed.
Lemma drop_rows {A} (rows : list (list A)) m k : Forall (fun r => length r = m) rows -> drop (k * m) (concat rows) = concat (drop k rows).
Proof.
  revert rows. induction k as [|k IH]; intros rows F; [done|]. destruct rows as [|r rows]; [cbn [concat]; by rewrite !drop_nil|]. apply Forall_cons in F as [H F].
  cbn [concat drop]. replace (S k * m)%nat with (length r + k * m)%nat by lia. rewrite <- drop_drop, drop_app. by apply IH.
Qed.
Lemma take_rows {A} (rows : list (list A)) m k : Forall (fun r => length r = m) rows -> take (k * m) (concat rows) = concat (take k rows).
Proof.
  revert rows. induction k as [|k IH]; intros rows F; [done|]. destruct rows as [|r rows]; [cbn [concat]; by rewrite !take_nil|]. apply Forall_cons in F as [H F].
  cbn [concat take]. replace (S k * m)%nat with (length r + k * m)%nat by lia. rewrite firstn_app_2. f_equal. by apply IH.
Qed.

Lemma map_lookup_seq' {A} (d : A) (l : list A) : map (fun i => default d (l !! i)) (seq 0 (length l)) = l.
Proof.
  apply list_eq. intros i. rewrite (list_lookup_fmap (fun i => default d (l !! i))). destruct (decide (i < length l)%nat) as [H|H].
  - rewrite lookup_seq_lt by done. cbn. by destruct (lookup_lt_is_Some_2 l i H) as [r ->].
  - rewrite lookup_seq_ge by lia. cbn. symmetry. apply lookup_ge_None_2. lia.
Qed.

Lemma scan_rows try cap rows c : Forall (fun r => length r = setSize cap) rows -> (c.1 + c.2 <= length rows)%nat ->
  scanItems try cap (message cap (concat rows) c) c.2 0 = Done ((c.2 * setSize cap)%nat, omap (rowMatch try cap) (take c.2 (drop c.1 rows))).
Proof.
  intros F H. destruct c as [i k]. cbn [fst snd] in *. unfold message. cbn [fst snd]. rewrite drop_rows by done.
  assert (Forall (fun r => length r = setSize cap) (drop i rows)) as F2 by (by apply Forall_drop). rewrite take_rows by done.
  assert (Forall (fun r => length r = setSize cap) (take k (drop i rows))) as F3 by (by apply Forall_take).
  assert (length (take k (drop i rows)) = k) as L by (rewrite take_length, drop_length; lia). set (rs := take k (drop i rows)) in *. clearbody rs. clear F F2 H. subst k.
  rewrite scanItems_eq by (rewrite (concat_rows_length _ _ F3); lia). f_equal. f_equal. cbn [Nat.add].
  transitivity (omap (fun j => rowMatch try cap (default [] (rs !! j))) (seq 0 (length rs))).
  - apply omap_ext_in. intros j Hj. apply elem_of_seq in Hj. rewrite drop_rows by done. destruct (lookup_lt_is_Some_2 rs j ltac:(lia)) as [r Hr]. rewrite Hr.
    rewrite (drop_S _ _ _ Hr). cbn [concat]. apply rowMatch_app. by apply (Forall_lookup_1 _ _ _ _ F3 Hr).
  - rewrite <- (omap_map (fun j => default [] (rs !! j)) (rowMatch try cap)). by rewrite map_lookup_seq'.
Qed.

Lemma chunks_rows {A} ss (rows : list A) fuel : (0 < ss)%nat -> forall i e, (e - i <= fuel)%nat -> (e <= length rows)%nat ->
  (forall c, c ∈ chunksOf ss fuel i e -> (c.1 + c.2 <= length rows)%nat) /\
  concat (map (fun c : nat * nat => take c.2 (drop c.1 rows)) (chunksOf ss fuel i e)) = take (e - i) (drop i rows).
Proof.
  intros Hss. induction fuel as [|fuel IH]; intros i e H L; cbn [chunksOf].
  - split; [intros c Hc; by apply elem_of_nil in Hc|]. by replace (e - i)%nat with 0%nat by lia.
  - destruct (i <? e)%nat eqn:E; [apply Nat.ltb_lt in E|apply Nat.ltb_ge in E].
    + destruct (IH (i + ss)%nat e ltac:(lia) L) as [B EQ]. split.
      * intros c Hc. apply elem_of_cons in Hc as [->|Hc]; [cbn; lia|by apply B].
      * cbn [map concat fst snd]. rewrite EQ. destruct (decide (ss <= e - i)%nat) as [D|D].
        -- rewrite Nat.min_l by done. replace (e - i)%nat with (ss + (e - (i + ss)))%nat by lia. rewrite <- (drop_drop rows ss i). by rewrite take_take_drop.
        -- rewrite Nat.min_r by lia. replace (e - (i + ss))%nat with 0%nat by lia. cbn. by rewrite app_nil_r.
    + split; [intros c Hc; by apply elem_of_nil in Hc|]. by replace (e - i)%nat with 0%nat by lia.
Qed.

Lemma scanMessages_rows try cap rows cs : Forall (fun r => length r = setSize cap) rows -> (forall c, c ∈ cs -> (c.1 + c.2 <= length rows)%nat) ->
  scanMessages try cap (concat rows) cs = Done (omap (rowMatch try cap) (concat (map (fun c : nat * nat => take c.2 (drop c.1 rows)) cs))).
Proof.
  intros F. induction cs as [|c cs IH]; intros H; [done|]. cbn [scanMessages map concat]. rewrite scan_rows by (done || (apply H; left)).
  rewrite IH by (intros c' Hc'; apply H; by right). by rewrite omap_app.
Qed.

Lemma collect_done (ls : list (list nat)) : collect (map Done ls) = Done (concat ls).
Proof. induction ls as [|l ls IH]; [done|]. cbn. by rewrite IH. Qed.

(** The chunks of all channels together. *)
Lemma channels_rows {A} ss (rows : list A) T : (0 < ss)%nat -> (0 < T)%nat -> N.of_nat (length rows + T) * N.of_nat T < 2 ^ 64 ->
  (forall t c, (t < T)%nat -> c ∈ channelChunks ss (length rows) T t -> (c.1 + c.2 <= length rows)%nat) /\
  concat (map (fun t => concat (map (fun c : nat * nat => take c.2 (drop c.1 rows)) (channelChunks ss (length rows) T t))) (seq 0 T)) = rows.
Proof.
  intros Hss HT Hw. pose proof (ceil_cover (N.of_nat (length rows)) (N.of_nat T) ltac:(lia)) as C.
  assert (N.of_nat (length rows) + N.of_nat T < 2 ^ 64) as W1 by nia.
  assert (N.of_nat T * ((N.of_nat (length rows) + N.of_nat T - 1) / N.of_nat T) < 2 ^ 64) as W2.
  { eapply N.le_lt_trans; [apply N.mul_div_le; lia|]. lia. }
  specialize (C W1 W2). unfold ranges in C. rewrite Nat2N.id in C.
  assert (forall t, (t < T)%nat -> (N.to_nat (ceilSplit (N.of_nat (length rows)) (N.of_nat T) (N.of_nat t)).2 <= length rows)%nat) as E.
  { intros t Ht. unfold ceilSplit. cbn [snd]. rewrite Nnat.N2Nat.inj_min, Nnat.Nat2N.id. lia. }
  assert (forall t, (t < T)%nat -> (forall c, c ∈ channelChunks ss (length rows) T t -> (c.1 + c.2 <= length rows)%nat) /\
    concat (map (fun c : nat * nat => take c.2 (drop c.1 rows)) (channelChunks ss (length rows) T t)) =
    omap (fun i => rows !! i) (positions (ceilSplit (N.of_nat (length rows)) (N.of_nat T) (N.of_nat t)))) as CH.
  { intros t Ht. unfold channelChunks, positions. specialize (E t Ht). destruct (ceilSplit _ _ _) as [s e]. cbn [fst snd] in *.
    destruct (chunks_rows ss rows (N.to_nat e - N.to_nat s) Hss (N.to_nat s) (N.to_nat e) ltac:(lia) E) as [B EQ]. split; [done|]. rewrite EQ. clear -E.
    set (a := N.to_nat s). replace (N.to_nat e - a)%nat with (N.to_nat e - a)%nat by done. assert (a + (N.to_nat e - a) <= length rows \/ N.to_nat e - a = 0)%nat as H by lia.
    revert H. generalize (N.to_nat e - a)%nat as k. clearbody a. clear. intros k H. destruct H as [H| ->]; [|done]. revert a H. induction k as [|k IH]; intros a H; [done|].
    destruct (lookup_lt_is_Some_2 rows a ltac:(lia)) as [r Hr]. rewrite (drop_S _ _ _ Hr). cbn [take seq omap list_omap]. rewrite Hr. f_equal. apply IH. lia. }
  split; [intros t c Ht; by apply CH|].
  assert (map (fun t => concat (map (fun c : nat * nat => take c.2 (drop c.1 rows)) (channelChunks ss (length rows) T t))) (seq 0 T) =
    map (fun t => omap (fun i => rows !! i) (positions (ceilSplit (N.of_nat (length rows)) (N.of_nat T) (N.of_nat t)))) (seq 0 T)) as ->.
  { apply map_ext_in. intros t Ht. apply in_seq in Ht. apply CH. lia. }
  rewrite <- (map_map (fun t => positions (ceilSplit (N.of_nat (length rows)) (N.of_nat T) (N.of_nat t))) (omap (fun i => rows !! i))).
  rewrite <- Rr17a_Proofs.omap_concat, C, Nat2N.id. by apply Rr17a_Proofs.omap_lookup_seq.
Qed.

(** ** The sender's buffer *)

Lemma writeRows_place ws : forall buf, writeRows ws buf = Rr17a_Model.placeRows ws.*1 ws.*2 buf.
Proof.
  induction ws as [|[p r] ws IH]; intros buf; [done|]. rewrite !fmap_cons. cbn [writeRows fst snd Rr17a_Model.placeRows]. destruct (p <? length buf)%nat; [apply IH|done].
Qed.
Lemma writeRows_perm ws buf : ws.*1 ≡ₚ seq 0 (length buf) -> exists res, writeRows ws buf = Some res /\ res ≡ₚ ws.*2.
Proof.
  intros H. destruct (Rr17a_Proofs.placeRows_perm ws.*1 ws.*2 buf H) as (res & E & HP).
  - rewrite fmap_length. rewrite <- (fmap_length fst ws), H. by rewrite seq_length.
  - exists res. by rewrite writeRows_place.
Qed.

Lemma sendPlacesOf_fst cap nb T t pl : pl ∈ sendPlacesOf cap nb T t -> pl.1.1 = t.
Proof. unfold sendPlacesOf. destruct (ceilSplit _ _ _). intros H. apply elem_of_lookup_imap_1 in H as (k & b & -> & _). done. Qed.

Lemma sendPlaces_bins cap nb T : (0 < T)%nat -> N.of_nat (nb + T) * N.of_nat T < 2 ^ 64 -> map (fun pl : nat * nat * nat => pl.1.2) (sendPlaces cap nb T) = seq 0 nb.
Proof.
  intros HT Hw. pose proof (ceil_cover (N.of_nat nb) (N.of_nat T) ltac:(lia)) as C.
  assert (N.of_nat nb + N.of_nat T < 2 ^ 64) as W1 by nia.
  assert (N.of_nat T * ((N.of_nat nb + N.of_nat T - 1) / N.of_nat T) < 2 ^ 64) as W2.
  { eapply N.le_lt_trans; [apply N.mul_div_le; lia|]. lia. }
  specialize (C W1 W2). unfold ranges in C. rewrite !Nat2N.id in C. etrans; [|exact C]. clear C. unfold sendPlaces. rewrite <- concat_map_map, map_map. f_equal. apply map_ext. intros t.
  unfold sendPlacesOf, positions. destruct (ceilSplit _ _ _) as [s e]. cbn [fst snd]. change (map ?f ?l) with (f <$> l) at 1. rewrite fmap_imap. apply list_eq. intros i.
  rewrite list_lookup_imap. by destruct (_ !! i).
Qed.

Lemma sendPlaces_unique cap nb T pl pl' : (0 < T)%nat -> N.of_nat (nb + T) * N.of_nat T < 2 ^ 64 ->
  pl ∈ sendPlaces cap nb T -> pl' ∈ sendPlaces cap nb T -> pl.1.2 = pl'.1.2 -> pl = pl'.
Proof.
  intros HT Hw. apply (Rr17a_Proofs.NoDup_map_inj_on (fun pl : nat * nat * nat => pl.1.2)). rewrite sendPlaces_bins by done. apply NoDup_seq.
Qed.

Lemma sendPlacesOf_eq cap nb T t : (t < T)%nat -> N.of_nat (nb + T) * N.of_nat T < 2 ^ 64 -> (N.of_nat T | N.of_nat nb) -> sendPlacesOf cap nb T t = placesOf cap nb T t.
Proof.
  intros Ht Hw HD. unfold sendPlacesOf, placesOf, idxRange.
  pose proof (rr17b_split_equal (N.of_nat nb) (N.of_nat T) (N.of_nat t) ltac:(lia) ltac:(lia) ltac:(nia) ltac:(nia) HD) as E. unfold rr17bSenderBins, rr17bReceiverBins in E. rewrite E.
  by destruct (evenSplit _ _ _).
Qed.

Lemma concat_map_inj {A} (f g : nat -> list A) l : (forall t, t ∈ l -> length (f t) = length (g t)) -> concat (map f l) = concat (map g l) -> forall t, t ∈ l -> f t = g t.
Proof.
  induction l as [|a l IH]; intros HL E t Ht; [by apply elem_of_nil in Ht|]. cbn [map concat] in E. apply app_inj_1 in E as [E1 E2]; [|apply HL; left].
  apply elem_of_cons in Ht as [-> |Ht]; [done|]. apply IH; [|done|done]. intros u Hu. apply HL. by right.
Qed.

Lemma sendPlaces_fit cap nb T : (0 < T)%nat -> N.of_nat (nb + T) * N.of_nat T < 2 ^ 64 -> (forall t, (t < T)%nat -> length (sendPlacesOf cap nb T t) = length (placesOf cap nb T t)) ->
  sendPlaces cap nb T = places cap nb T.
Proof.
  intros HT Hw HL. unfold sendPlaces, places. f_equal. apply map_ext_in. intros t Ht. apply elem_of_list_In in Ht.
  assert (map (fun pl : nat * nat * nat => pl.1.2) (sendPlacesOf cap nb T t) = map (fun pl : nat * nat * nat => pl.1.2) (placesOf cap nb T t)) as E.
  { apply (concat_map_inj (fun t => map (fun pl : nat * nat * nat => pl.1.2) (sendPlacesOf cap nb T t)) (fun t => map (fun pl : nat * nat * nat => pl.1.2) (placesOf cap nb T t)) (seq 0 T)); [| |done].
    - intros u Hu. apply elem_of_seq in Hu. rewrite !map_length. apply HL. lia.
    - rewrite <- (map_map (sendPlacesOf cap nb T) (map (fun pl : nat * nat * nat => pl.1.2))), <- (map_map (placesOf cap nb T) (map (fun pl : nat * nat * nat => pl.1.2))), !concat_map_map. fold (sendPlaces cap nb T) (places cap nb T).
      rewrite sendPlaces_bins, places_bins by (done || nia). done. }
  revert E. unfold sendPlacesOf, placesOf. destruct (ceilSplit _ _ _) as [s e]. intros E. cbn [fst snd] in E. apply list_eq. intros i.
  apply (f_equal (fun l : list nat => l !! i)) in E. rewrite !(list_lookup_fmap (fun pl : nat * nat * nat => pl.1.2)) in E. rewrite !list_lookup_imap in E. rewrite !list_lookup_imap.
  destruct (seq _ _ !! i), (idxRange nb T t !! i); cbn in *; congruence.
Qed.

(** ** The schedule *)

Lemma before_trans a b c l : NoDup l -> before a b l -> before b c l -> before a c l.
Proof.
  intros ND (i & j & Hi & Hj & L) (j' & k & Hj' & Hk & L'). exists i, k. split; [done|]. split; [done|]. assert (j = j') as <- by (by eapply NoDup_lookup). lia.
Qed.

Lemma sched_before T l t u : schedOk T l -> (t < T)%nat -> (u < T)%nat -> before (Insert u) (Lookup t) l.
Proof.
  intros [ND H] Ht Hu. destruct (H u Hu) as (H1 & H2 & H3 & H4 & _). destruct (H t Ht) as (_ & _ & _ & _ & H5).
  apply (before_trans _ (Send t)); [done| |done]. apply (before_trans _ (Barrier u)); [done| |by apply H4].
  apply (before_trans _ (Corrected u)); [done| |done]. by apply (before_trans _ (Correct u)).
Qed.

Lemma seen_insert t l u : u ∈ seen t l -> Insert u ∈ l.
Proof.
  induction l as [|e l IH]; intros H; [by apply elem_of_nil in H|]. destruct e; cbn [seen] in H; try (right; by apply IH).
  - apply elem_of_cons in H as [-> |H]; [left|right; by apply IH].
  - destruct (_ =? _)%nat; [by apply elem_of_nil in H|right; by apply IH].
Qed.

Lemma before_seen t u l : NoDup l -> before (Insert u) (Lookup t) l -> u ∈ seen t l.
Proof.
  induction l as [|e l IH]; intros ND (i & j & Hi & Hj & L); [done|]. apply NoDup_cons in ND as [NI ND].
  destruct i as [|i].
  - cbn in Hi. injection Hi as ->. cbn [seen]. left.
  - destruct j as [|j]; [lia|]. cbn in Hi, Hj. assert (u ∈ seen t l) as HU by (apply IH; [done|exists i, j; split; [done|]; split; [done|lia]]).
    destruct e; cbn [seen]; try done; [by right|].
    destruct (Nat.eqb_spec t0 t) as [->|]; [|done]. exfalso. apply NI. by eapply elem_of_list_lookup_2.
Qed.

Lemma sched_seen P rd t u : randOk P rd -> (t < pT P)%nat -> u ∈ seen t (rSched rd) <-> (u < pT P)%nat.
Proof.
  intros (_ & _ & _ & _ & _ & _ & _ & HS & HI) Ht. split.
  - intros H. by apply HI, (seen_insert t).
  - intros Hu. apply before_seen; [apply HS|]. by apply (sched_before (pT P)).
Qed.

(** ** Rows *)

Lemma bytesLE_length n b : length (bytesLE n b) = n.
Proof. unfold bytesLE. by rewrite map_length, seq_length. Qed.

Definition slotBytes (c : N * N) (r : N) : list N := bytesLE 4 c.1 ++ bytesLE 16 (N.lxor c.2 r).
Lemma slotBytes_length c r : length (slotBytes c r) = 20%nat.
Proof. unfold slotBytes. by rewrite app_length, !bytesLE_length. Qed.

Lemma lxor_lt a b n : a < 2 ^ n -> b < 2 ^ n -> N.lxor a b < 2 ^ n.
Proof.
  intros Ha Hb. destruct (N.eq_dec (N.lxor a b) 0) as [->|NE]; [apply N.neq_0_lt_0, N.pow_nonzero; done|].
  apply N.log2_lt_pow2; [lia|]. eapply N.le_lt_trans; [apply N.log2_lxor|].
  apply N.max_lub_lt.
  - destruct (N.eq_dec a 0) as [->|]; [|apply N.log2_lt_pow2; [lia|done]]. destruct (N.eq_dec b 0) as [->|]; [done|].
    destruct n; [|cbn; lia]. change (2 ^ 0) with 1 in *. lia.
  - destruct (N.eq_dec b 0) as [->|]; [|apply N.log2_lt_pow2; [lia|done]]. destruct (N.eq_dec a 0) as [->|]; [done|].
    destruct n; [|cbn; lia]. change (2 ^ 0) with 1 in *. lia.
Qed.

Lemma findSlots_slots try (cs : list (N * N)) r : r < 2 ^ 128 -> Forall (fun c => c.1 < 2 ^ 32 /\ c.2 < 2 ^ 128) cs ->
  findSlots try (concat (map (fun c => slotBytes c r) cs)) (length cs) = head (omap (fun c : N * N => try c.1 (N.lxor c.2 r)) cs).
Proof.
  intros Hr. induction cs as [|c cs IH]; intros F; [done|]. apply Forall_cons in F as [[H1 H2] F]. cbn [map concat length findSlots omap list_omap].
  assert (length (bytesLE 4 c.1) = 4%nat) as L4 by apply bytesLE_length. assert (length (bytesLE 16 (N.lxor c.2 r)) = 16%nat) as L16 by apply bytesLE_length.
  assert (take 4 (slotBytes c r ++ concat (map (fun c => slotBytes c r) cs)) = bytesLE 4 c.1) as ->.
  { unfold slotBytes at 1. rewrite <- app_assoc. by rewrite take_app_alt. }
  assert (take 16 (drop 4 (slotBytes c r ++ concat (map (fun c => slotBytes c r) cs))) = bytesLE 16 (N.lxor c.2 r)) as ->.
  { unfold slotBytes at 1. rewrite <- app_assoc. rewrite drop_app_alt by done. by rewrite take_app_alt. }
  rewrite drop_app_alt by (by rewrite slotBytes_length). rewrite !leBytes_bytesLE; [|by apply lxor_lt|done].
  destruct (try _ _); [done|]. by apply IH.
Qed.

Lemma itemRow_eq P dec S t base j : itemRow P dec S t base j = bytesLE 20 (pCom P (default 0 (S !! j)) (dec j)) ++
  concat (map (fun c => slotBytes c (dec j)) (map (fun l => pEnc P t (base + l)%nat (otInput P (default 0 (S !! j)))) (seq 0 (pCap P)))).
Proof. unfold itemRow. cbv zeta. f_equal. by rewrite map_map. Qed.

Lemma itemRow_length P dec S t base j : length (itemRow P dec S t base j) = setSize (pCap P).
Proof.
  rewrite itemRow_eq, app_length, bytesLE_length, (concat_rows_length _ 20).
  - rewrite !map_length, seq_length. unfold setSize. lia.
  - apply Forall_map, Forall_true. intros c. apply slotBytes_length.
Qed.

Lemma rowMatch_item P rd S try t base j y : (forall t i x, (pEnc P t i x).1 < 2 ^ 32 /\ (pEnc P t i x).2 < 2 ^ 128) -> (forall x r, pCom P x r < 2 ^ 160) ->
  rDec rd j < 2 ^ 128 -> S !! j = Some y ->
  rowMatch try (pCap P) (itemRow P (rDec rd) S t base j) =
    head (omap (fun l => try (pCom P y (rDec rd j)) (pEnc P t (base + l)%nat (otInput P y)).1 (N.lxor (pEnc P t (base + l)%nat (otInput P y)).2 (rDec rd j))) (seq 0 (pCap P))).
Proof.
  intros HE HC HD HJ. rewrite itemRow_eq, HJ. change (default 0 (Some y)) with y. unfold rowMatch.
  assert (length (bytesLE 20 (pCom P y (rDec rd j))) = 20%nat) as L by apply bytesLE_length. rewrite take_app_alt, drop_app_alt by done.
  rewrite leBytes_bytesLE by apply HC. set (cs := map _ (seq 0 (pCap P))). assert (length cs = pCap P) as LC by (unfold cs; by rewrite map_length, seq_length).
  rewrite <- LC at 1. rewrite findSlots_slots; [|done|]. { unfold cs. by rewrite omap_map. }
  unfold cs. apply Forall_map, Forall_true. intros l. apply HE.
Qed.

Lemma head_omap_Some {A B} (f : A -> option B) l y : head (omap f l) = Some y -> exists x, x ∈ l /\ f x = Some y.
Proof.
  induction l as [|a l IH]; [done|]. cbn. destruct (f a) eqn:E.
  - intros H. cbn in H. injection H as ->. exists a. split; [left|done].
  - intros H. destruct (IH H) as (x & Hx & Ex). exists x. split; [by right|done].
Qed.
Lemma head_omap_is {A B} (f : A -> option B) l x : x ∈ l -> is_Some (f x) -> is_Some (head (omap f l)).
Proof.
  induction l as [|a l IH]; intros H HS; [by apply elem_of_nil in H|]. cbn. destruct (f a) eqn:E; [by eexists|].
  apply elem_of_cons in H as [->|H]; [rewrite E in HS; by destruct HS|]. by apply IH.
Qed.

(** ** The run *)

Definition toA (P : params) : Rr17a_Model.params :=
  Rr17a_Model.mkParams true (binValue P) (pN P) (pNb P) (pCap P) (pMask P) (pT P) (fun _ _ _ => 0) (fun _ _ _ => 0).
Lemma toA_ok P l : paramsOk P l -> Rr17a_Spec.paramsOk (toA P) l.
Proof.
  intros (Hn & Hnb & Hcap & HT & HM & Hw & Hw2 & HL & HC & _). unfold Rr17a_Spec.paramsOk. cbn [toA Rr17a_Model.pN Rr17a_Model.pNb Rr17a_Model.pCap Rr17a_Model.pT Rr17a_Model.pMask].
  split; [done|]. split; [done|]. split; [done|]. split; [done|]. split; [done|]. split; [nia|]. split; [done|]. exact HC.
Qed.

(** Entries: tag, item, key of an item of the receiver. *)
Definition goodEntry (P : params) (R : list N) (e : N * (nat * N)) : Prop :=
  exists x t s, R !! e.2.1 = Some x /\ e.1 = (pEnc P t s (otInput P x)).1 /\ e.2.2 = (pEnc P t s (otInput P x)).2.

Lemma tryTag_Some com R tab comm tag enc i : tryTag com R tab comm tag enc = Some i ->
  exists e, e ∈ tab /\ e.2.1 = i /\ e.1 = tag /\ com (default 0 (R !! i)) (N.lxor e.2.2 enc) = comm.
Proof.
  unfold tryTag. destruct (list_find _ tab) as [[k e]|] eqn:E; [|done]. intros H. injection H as <-. apply list_find_Some in E as (Ek & [E1 E2] & _).
  exists e. split; [by eapply elem_of_list_lookup_2|]. done.
Qed.
Lemma tryTag_is com R tab comm tag enc e : e ∈ tab -> e.1 = tag -> com (default 0 (R !! e.2.1)) (N.lxor e.2.2 enc) = comm -> is_Some (tryTag com R tab comm tag enc).
Proof.
  intros H E1 E2. unfold tryTag. destruct (list_find_elem_of (fun e => e.1 = tag /\ com (default 0 (R !! e.2.1)) (N.lxor e.2.2 enc) = comm) tab e H (conj E1 E2)) as [[k e'] ->]. by eexists.
Qed.

Lemma row_sound P rd R S tab t base j y i : (forall t i x, (pEnc P t i x).1 < 2 ^ 32 /\ (pEnc P t i x).2 < 2 ^ 128) -> (forall x r, pCom P x r < 2 ^ 160) ->
  rDec rd j < 2 ^ 128 -> binding P rd R S -> S !! j = Some y -> (forall e, e ∈ tab -> goodEntry P R e) ->
  rowMatch (tryTag (pCom P) R tab) (pCap P) (itemRow P (rDec rd) S t base j) = Some i -> R !! i = Some y.
Proof.
  intros HE HC HD HB HJ HG. rewrite (rowMatch_item P rd S _ t base j y) by done. intros H. apply head_omap_Some in H as (l & _ & H).
  apply tryTag_Some in H as (e & He & Ei & E1 & E2). destruct (HG e He) as (x & t' & s & Ex & F1 & F2). rewrite Ei in Ex. rewrite Ex in E2. change (default 0 (Some x)) with x in E2.
  rewrite F1 in E1. rewrite F2 in E2. rewrite Ex. f_equal. by apply (HB x j y t' s t (base + l)%nat); [eapply elem_of_list_lookup_2| | |].
Qed.

Lemma row_complete P rd R S tab t base j y i s : (forall t i x, (pEnc P t i x).1 < 2 ^ 32 /\ (pEnc P t i x).2 < 2 ^ 128) -> (forall x r, pCom P x r < 2 ^ 160) ->
  rDec rd j < 2 ^ 128 -> S !! j = Some y -> R !! i = Some y -> (s < pCap P)%nat ->
  ((pEnc P t (base + s)%nat (otInput P y)).1, (i, (pEnc P t (base + s)%nat (otInput P y)).2)) ∈ tab ->
  is_Some (rowMatch (tryTag (pCom P) R tab) (pCap P) (itemRow P (rDec rd) S t base j)).
Proof.
  intros HE HC HD HJ HI Hs He. rewrite (rowMatch_item P rd S _ t base j y) by done. apply (head_omap_is _ _ s); [apply elem_of_seq; lia|].
  apply (tryTag_is _ _ _ _ _ _ _ He); [done|]. cbn [fst snd]. rewrite HI. change (default 0 (Some y)) with y. f_equal. by rewrite <- N.lxor_assoc, N.lxor_nilpotent, N.lxor_0_l.
Qed.

Record runFacts (P : params) (rd : rand) (R S : list N) (asg : nat -> list (nat * nat)) (row : nat -> list N) (pl : nat -> nat * nat) (tab : nat -> list (N * (nat * N))) : Prop := {
  rfRow : forall j, (j < pN P)%nat -> row j = itemRow P (rDec rd) S (pl j).1 (pl j).2 j;
  rfPl : forall j y, S !! j = Some y -> ((pl j).1, itemBin P y, (pl j).2) ∈ sendPlaces (pCap P) (pNb P) (pT P);
  rfTab : forall t e, (t < pT P)%nat -> e ∈ tab t <-> exists u, (u < pT P)%nat /\ e ∈ tagEntries P R (asg u) u;
  rfItem : forall u i s, (u < pT P)%nat -> (i, s) ∈ asg u -> (i < length R)%nat;
  rfAsg : forall u b base i x, (u, b, base) ∈ placesOf (pCap P) (pNb P) (pT P) u -> (u < pT P)%nat -> R !! i = Some x -> itemBin P x = b ->
    exists s, (s < pCap P)%nat /\ (i, (base + s)%nat) ∈ asg u }.

Lemma run_facts ss P rd R S old : (0 < ss)%nat -> paramsOk P R -> paramsOk P S -> randOk P rd ->
  (forall t, (t < pT P)%nat -> length (sendPlacesOf (pCap P) (pNb P) (pT P) t) = length (placesOf (pCap P) (pNb P) (pT P) t)) ->
  exists asg row pl tab chans, runFacts P rd R S asg row pl tab /\ concat (map chans (seq 0 (pT P))) ≡ₚ map row (seq 0 (pN P)) /\
    rr17bRun ss P rd R S old = Done (old ++ map N.of_nat (concat (map (fun t => omap (rowMatch (tryTag (pCom P) R (tab t)) (pCap P)) (chans t)) (rOut rd)))).
Proof.
  intros Hss HR HS HD HF. pose proof HD as (D1 & D2 & D3 & D4 & D5 & D6 & D7 & _). pose proof (toA_ok P R HR) as AR. pose proof (toA_ok P S HS) as AS.
  pose proof HR as (Hn & Hnb & Hcap & HT & HM & Hw & Hw2 & HLR & HCR & HE & HC). pose proof HS as (_ & _ & _ & _ & _ & _ & _ & HLS & HCS & _ & _).
  assert (N.of_nat (pNb P) * N.of_nat (pT P) < 2 ^ 64) as HwA by nia.
  destruct (Rr17a_Proofs.mkBins_ok (toA P) R _ AR D3) as (binsR & ER & OR). destruct (Rr17a_Proofs.mkBins_ok (toA P) S _ AS D4) as (binsS & ES & OS).
  change (Rr17a_Model.mkBins (toA P) R (rOrdR rd)) with (mkBins P R (rOrdR rd)) in ER. change (Rr17a_Model.mkBins (toA P) S (rOrdS rd)) with (mkBins P S (rOrdS rd)) in ES.
  unfold rr17bRun. rewrite HLR, HLS, Nat.eqb_refl. cbn [negb orb]. assert ((16 <? pMask P) = false) as -> by (apply N.ltb_ge; done). rewrite ER, ES.
  assert (forallb (correctionsFit (pCap P) (pNb P) (pT P)) (seq 0 (pT P)) = true) as ->.
  { apply forallb_forall. intros t Ht. apply in_seq in Ht. apply Nat.eqb_eq. symmetry. apply HF. lia. }
  cbn [negb].
  assert (forall t, (t < pT P)%nat -> forall t' b base, (t', b, base) ∈ placesOf (pCap P) (pNb P) (pT P) t -> t' = t /\ (b < pNb P)%nat) as BN.
  { intros t Ht t' b base Hpl. pose proof (placesOf_fst _ _ _ _ _ Hpl) as E0. cbn in E0. subst t'. split; [done|]. assert (b ∈ seq 0 (pNb P)) as Hb; [|apply elem_of_seq in Hb; lia].
    rewrite <- (places_bins (pCap P) (pNb P) (pT P) HT HwA). apply elem_of_list_fmap. exists (t, b, base). split; [done|]. unfold places. apply elem_of_concat. eexists. split; [exact Hpl|].
    apply elem_of_list_fmap. exists t. split; [done|]. apply elem_of_seq. lia. }
  assert (forall t, (t < pT P)%nat -> forall t' b base, (t', b, base) ∈ placesOf (pCap P) (pNb P) (pT P) t -> exists bin, binsR !! b = Some bin /\ (length bin <= pCap P)%nat) as BIN.
  { intros t Ht t' b base Hpl. destruct (BN t Ht _ _ _ Hpl) as [-> Hb]. destruct (Rr17a_Proofs.binsOk_elem (toA P) R binsR b 0 OR Hb) as (bin & Eb & _). exists bin. split; [done|].
    by apply (Rr17a_Proofs.binsOk_length (toA P) R binsR b bin OR). }
  set (fR := fun t => recvAssign (pCap P) (rDraw rd) binsR (placesOf (pCap P) (pNb P) (pT P) t) (seq 0 (pCap P))).
  assert (forall t, (t < pT P)%nat -> exists parts, fR t = Some (concat parts) /\ Forall2 (partOk (pCap P) binsR) (placesOf (pCap P) (pNb P) (pT P) t) parts) as FR.
  { intros t Ht. apply recvAssign_ok; [done|]. by apply BIN. }
  set (gR := fun t => default [] (fR t)).
  assert (mapM fR (seq 0 (pT P)) = Some (map gR (seq 0 (pT P)))) as ->.
  { apply mapM_total. intros t Ht. apply elem_of_seq in Ht. destruct (FR t ltac:(lia)) as (parts & E & _). unfold gR. by rewrite E. }
  set (pl := fun j => match list_find (fun p : nat * nat * nat => p.1.2 = itemBin P (default 0 (S !! j))) (sendPlaces (pCap P) (pNb P) (pT P)) with
                      | Some (_, (t, _, base)) => (t, base) | None => (0%nat, 0%nat) end).
  assert (forall t b base j y, (t, b, base) ∈ sendPlaces (pCap P) (pNb P) (pT P) -> S !! j = Some y -> itemBin P y = b -> pl j = (t, base)) as PL.
  { intros t b base j y Hpl Hj Hb. unfold pl. rewrite Hj. change (default 0 (Some y)) with y. rewrite Hb.
    destruct (list_find (fun p : nat * nat * nat => p.1.2 = b) (sendPlaces (pCap P) (pNb P) (pT P))) as [[k [[t' b'] base']]|] eqn:E.
    - apply list_find_Some in E as (Ek & E & _). cbn in E. subst b'. pose proof (sendPlaces_unique _ _ _ _ _ HT Hw Hpl (elem_of_list_lookup_2 _ _ _ Ek) eq_refl) as EE. by injection EE as -> ->.
    - apply list_find_None in E. rewrite Forall_forall in E. exfalso. by apply (E _ Hpl). }
  assert (forall j y, S !! j = Some y -> ((pl j).1, itemBin P y, (pl j).2) ∈ sendPlaces (pCap P) (pNb P) (pT P)) as PLE.
  { intros j y Hj. assert (itemBin P y ∈ map (fun p : nat * nat * nat => p.1.2) (sendPlaces (pCap P) (pNb P) (pT P))) as H.
    { rewrite sendPlaces_bins by done. apply elem_of_seq. pose proof (binOf_lt (pNb P) (binValue P y) Hnb) as L. unfold itemBin. lia. }
    apply elem_of_list_fmap in H as ([[t b] base] & E & H). cbn in E. rewrite (PL t b base j y H Hj E). cbn. by rewrite E. }
  set (row := fun j => itemRow P (rDec rd) S (pl j).1 (pl j).2 j).
  set (js := concat (map (fun p : nat * nat * nat => default [] (binsS !! p.1.2)) (rPlaces rd))).
  assert (js ≡ₚ seq 0 (pN P)) as HJ.
  { unfold js. rewrite <- HLS. apply (Rr17a_Proofs.binsOk_all (toA P) S binsS); [done|done|]. rewrite (Permutation_map _ D5), sendPlaces_bins by done. done. }
  assert (sendWrites P rd S binsS = map (fun j => (default (pN P) (rPerm rd !! j), row j)) js) as ESW.
  { unfold sendWrites, js. rewrite <- concat_map_map, map_map. f_equal. apply map_ext_in. intros [[t b] base] Hpl. cbn [fst snd]. apply map_ext_in. intros j Hj.
    apply elem_of_list_In in Hpl, Hj. rewrite D5 in Hpl. assert (b < pNb P)%nat as Hb.
    { assert (b ∈ seq 0 (pNb P)) as Hb; [|apply elem_of_seq in Hb; lia]. rewrite <- (sendPlaces_bins (pCap P) (pNb P) (pT P) HT Hw). apply elem_of_list_fmap. by exists (t, b, base). }
    destruct (Rr17a_Proofs.binsOk_elem (toA P) S binsS b j OS Hb) as (bin & Eb & _ & HI). rewrite Eb in Hj. apply HI in Hj as (y & Ey & Hy). unfold row. by rewrite (PL t b base j y). }
  rewrite ESW. destruct (writeRows_perm (map (fun j => (default (pN P) (rPerm rd !! j), row j)) js) (replicate (pN P) (replicate (setSize (pCap P)) 0))) as (rows & EW & HP).
  { rewrite replicate_length. assert ((map (fun j => (default (pN P) (rPerm rd !! j), row j)) js).*1 = map (fun j => default (pN P) (rPerm rd !! j)) js) as ->.
    { change (map ?f ?l).*1 with (map fst (map f l)). by rewrite map_map. }
    rewrite (Permutation_map _ HJ). assert (length (rPerm rd) = pN P) as <- by (by rewrite D1, seq_length). rewrite map_lookup_seq'. rewrite D1 at 1. by rewrite D1, seq_length. }
  rewrite EW. assert (rows ≡ₚ map row (seq 0 (pN P))) as HP'.
  { rewrite HP. change (map ?f js).*2 with (map snd (map f js)). rewrite map_map. by rewrite (Permutation_map _ HJ). }
  assert (Forall (fun r => length r = setSize (pCap P)) rows) as FL.
  { rewrite HP'. apply Forall_forall. intros r Hr. apply elem_of_list_fmap in Hr as (j & -> & _). unfold row. apply itemRow_length. }
  assert (length rows = pN P) as LR by (by rewrite HP', map_length, seq_length).
  destruct (channels_rows ss rows (pT P) Hss HT ltac:(by rewrite LR)) as [CB CC].
  set (tab := fun t => rTab rd t (concat (map (fun u => tagEntries P R (default [] (map gR (seq 0 (pT P)) !! u)) u) (seen t (rSched rd))))).
  exists gR, row, pl, tab. eexists (fun t => concat (map (fun c : nat * nat => take c.2 (drop c.1 rows)) (channelChunks ss (pN P) (pT P) t))).
  split; [|split].
  - split; [done|done| | |].
    + intros t e Ht. unfold tab. rewrite D6, elem_of_concat.
      assert (forall u, (u < pT P)%nat -> default [] (map gR (seq 0 (pT P)) !! u) = gR u) as EU.
      { intros u Hu. rewrite (list_lookup_fmap gR), lookup_seq_lt by done. done. }
      split.
      * intros (l & He & Hl). apply elem_of_list_fmap in Hl as (u & -> & Hu). apply (sched_seen P rd t u HD Ht) in Hu. rewrite EU in He by done. eauto.
      * intros (u & Hu & He). eexists. split; [|apply elem_of_list_fmap; exists u; split; [reflexivity|by apply (sched_seen P rd t u HD Ht)]]. by rewrite EU.
    + intros u i s Hu Hi. destruct (FR u Hu) as (parts & E & F). unfold gR in Hi. rewrite E in Hi. cbn in Hi. apply elem_of_concat in Hi as (part & Hi & Hpart).
      apply elem_of_list_lookup in Hpart as [k Hk]. destruct (Forall2_lookup_r _ _ _ _ _ F Hk) as ([[t' b] base] & Epl & bin & Eb & Hfst & _ & L). cbn [fst snd] in *.
      apply elem_of_list_lookup_2 in Epl. destruct (BN u Hu _ _ _ Epl) as [-> Hb]. destruct (Rr17a_Proofs.binsOk_elem (toA P) R binsR b i OR Hb) as (bin' & Eb' & _ & HI).
      rewrite Eb in Eb'. injection Eb' as <-. assert (i ∈ bin) as Hbin by (rewrite <- Hfst; by apply (elem_of_list_fmap_1 fst) in Hi). apply HI in Hbin as (x & Ex & _). by eapply lookup_lt_Some.
    + intros u b base i x Hpl Hu Ex Hb. destruct (FR u Hu) as (parts & E & F). apply elem_of_list_lookup in Hpl as [k Hk].
      destruct (Forall2_lookup_l _ _ _ _ _ F Hk) as (part & Epart & bin & Ebin & Hfst & _ & HS'). cbn [fst snd] in *.
      destruct (Rr17a_Proofs.binsOk_elem (toA P) R binsR b i OR) as (bin' & Ebin' & _ & HI); [subst b; by apply binOf_lt|]. rewrite Ebin in Ebin'. injection Ebin' as <-.
      assert (i ∈ part.*1) as Hin by (rewrite Hfst; apply HI; eauto). apply elem_of_list_fmap in Hin as ([i' s] & E' & Hin). cbn in E'. subst i'.
      pose proof (HS' s ltac:(by apply (elem_of_list_fmap_1 snd) in Hin)) as Hs. exists (s - base)%nat. split; [lia|]. replace (base + (s - base))%nat with s by lia.
      unfold gR. rewrite E. cbn [default]. unfold id. apply elem_of_concat. exists part. split; [done|]. by eapply elem_of_list_lookup_2.
  - rewrite LR in CC. cbn beta. by rewrite CC.
  - cbv zeta. match goal with |- context [collect ?l] => assert (l =
      map Done (map (fun t => omap (rowMatch (tryTag (pCom P) R (tab t)) (pCap P)) (concat (map (fun c : nat * nat => take c.2 (drop c.1 rows)) (channelChunks ss (pN P) (pT P) t)))) (rOut rd))) as -> end.
    { rewrite map_map. apply map_ext_in. intros t Ht. apply elem_of_list_In in Ht. rewrite D7 in Ht. apply elem_of_seq in Ht. apply scanMessages_rows; [done|].
      intros c Hc. apply (CB t c); [lia|by rewrite LR]. }
    rewrite collect_done. done.
Qed.

Definition posIn (R : list N) (y : N) : option N := match list_find (fun x => x = y) R with Some (i, _) => Some (N.of_nat i) | None => None end.

Lemma posIn_is R y i : NoDup R -> R !! i = Some y -> posIn R y = Some (N.of_nat i).
Proof.
  intros ND Ei. unfold posIn. destruct (list_find (fun x => x = y) R) as [[i' x]|] eqn:E.
  - apply list_find_Some in E as (E' & -> & _). by rewrite (NoDup_lookup R i' i y ND).
  - apply list_find_None in E. rewrite Forall_forall in E. exfalso. apply (E y); [|done]. by eapply elem_of_list_lookup_2.
Qed.

Lemma commonPositions_seq R S : commonPositions R S = omap (fun j => posIn R (default 0 (S !! j))) (seq 0 (length S)).
Proof.
  unfold commonPositions. fold (posIn R). change (omap (posIn R) S = omap (fun j => posIn R (default 0 (S !! j))) (seq 0 (length S))).
  rewrite <- (omap_map (fun j => default 0 (S !! j)) (posIn R)). by rewrite map_lookup_seq'.
Qed.

Lemma tagEntries_good P R assign u e : (forall i s, (i, s) ∈ assign -> (i < length R)%nat) -> e ∈ tagEntries P R assign u -> goodEntry P R e.
Proof.
  intros H He. apply elem_of_list_fmap in He as ([i s] & -> & Hi). destruct (lookup_lt_is_Some_2 R i (H i s Hi)) as [x Ex]. exists x, u, s. cbn [fst snd]. by rewrite Ex.
Qed.

Lemma map_omap_of_nat {A} (f : A -> option nat) (l : list A) : map N.of_nat (omap f l) = omap (fun a => N.of_nat <$> f a) l.
Proof. induction l as [|a l IH]; [done|]. cbn. destruct (f a); cbn; by rewrite IH. Qed.

Lemma map_concat_omap {A B} (f : B -> A -> option nat) (g : B -> list A) (ts : list B) :
  map N.of_nat (concat (map (fun t => omap (f t) (g t)) ts)) = concat (map (fun t => omap (fun a => N.of_nat <$> f t a) (g t)) ts).
Proof. rewrite <- concat_map_map, map_map. f_equal. apply map_ext. intros t. apply map_omap_of_nat. Qed.

Section combine.
  Context (P : params) (rd : rand) (R S : list N) (asg : nat -> list (nat * nat)) (row : nat -> list N) (pl : nat -> nat * nat) (tab : nat -> list (N * (nat * N))).
  Context (HR : paramsOk P R) (HS : paramsOk P S) (HD : randOk P rd) (F : runFacts P rd R S asg row pl tab).

  Lemma itemLookup j : (j < pN P)%nat -> exists y, S !! j = Some y.
  Proof using HS. intros Hj. destruct HS as (_ & _ & _ & _ & _ & _ & _ & HL & _). apply lookup_lt_is_Some_2. lia. Qed.

  Lemma one_match t j y i : binding P rd R S -> (t < pT P)%nat -> (j < pN P)%nat -> S !! j = Some y -> rowMatch (tryTag (pCom P) R (tab t)) (pCap P) (row j) = Some i -> R !! i = Some y.
  Proof using F HR HD.
    intros HB Ht Hj Ey. destruct HR as (_ & _ & _ & _ & _ & _ & _ & _ & _ & HE & HC). destruct HD as (_ & D & _). rewrite (rfRow _ _ _ _ _ _ _ _ F) by done.
    apply row_sound; try done. intros e He. apply (rfTab _ _ _ _ _ _ _ _ F) in He as (u & Hu & He); [|done]. apply (tagEntries_good P R (asg u) u); [|done].
    intros i' s. by apply (rfItem _ _ _ _ _ _ _ _ F).
  Qed.

  Lemma full_match t j y : (t < pT P)%nat -> (j < pN P)%nat -> S !! j = Some y ->
    (forall t, (t < pT P)%nat -> length (sendPlacesOf (pCap P) (pNb P) (pT P) t) = length (placesOf (pCap P) (pNb P) (pT P) t)) -> y ∈ R ->
    is_Some (rowMatch (tryTag (pCom P) R (tab t)) (pCap P) (row j)).
  Proof using F HR HD.
    intros Ht Hj Ey HF Hy. pose proof HR as (Hn & Hnb & Hcap & HT & HMk & Hw & Hw2 & HLR & HCR & HE & HC). pose proof HD as (_ & D & _).
    pose proof (rfPl _ _ _ _ _ _ _ _ F j y Ey) as Hpl. rewrite sendPlaces_fit in Hpl by done.
    unfold places in Hpl. apply elem_of_concat in Hpl as (l & Hpl & Hl). apply elem_of_list_fmap in Hl as (u & -> & Hu). apply elem_of_seq in Hu.
    pose proof (placesOf_fst _ _ _ _ _ Hpl) as E0. cbn in E0. rewrite E0 in Hpl. apply elem_of_list_lookup in Hy as [i Hi].
    destruct (rfAsg _ _ _ _ _ _ _ _ F u (itemBin P y) (pl j).2 i y Hpl ltac:(lia) Hi eq_refl) as (s & Hs & Hin).
    rewrite (rfRow _ _ _ _ _ _ _ _ F) by done. rewrite E0. apply (row_complete P rd R S _ u _ j y i s); try done.
    apply (rfTab _ _ _ _ _ _ _ _ F); [done|]. exists u. split; [lia|]. apply elem_of_list_fmap. exists (i, ((pl j).2 + s)%nat). split; [|done]. cbn [fst snd]. by rewrite Hi.
  Qed.

  Lemma match_posIn t j : binding P rd R S -> NoDup R -> (t < pT P)%nat -> (j < pN P)%nat ->
    (forall t, (t < pT P)%nat -> length (sendPlacesOf (pCap P) (pNb P) (pT P) t) = length (placesOf (pCap P) (pNb P) (pT P) t)) ->
    N.of_nat <$> rowMatch (tryTag (pCom P) R (tab t)) (pCap P) (row j) = posIn R (default 0 (S !! j)).
  Proof using F HR HS HD.
    intros HB ND Ht Hj HF. destruct (itemLookup j Hj) as [y Ey]. rewrite Ey. change (default 0 (Some y)) with y.
    destruct (rowMatch (tryTag (pCom P) R (tab t)) (pCap P) (row j)) as [i|] eqn:Em.
    - apply (one_match t j y) in Em; [|done..]. by rewrite (posIn_is R y i).
    - unfold posIn. destruct (list_find (fun x => x = y) R) as [[i x]|] eqn:El; [|done]. apply list_find_Some in El as (Ei & -> & _). exfalso.
      destruct (full_match t j y Ht Hj Ey HF ltac:(by eapply elem_of_list_lookup_2)) as [i' Ei']. congruence.
  Qed.
End combine.

Lemma run_fit ss P rd R S old : (0 < ss)%nat -> paramsOk P R -> paramsOk P S -> randOk P rd -> binding P rd R S -> NoDup R ->
  (forall t, (t < pT P)%nat -> length (sendPlacesOf (pCap P) (pNb P) (pT P) t) = length (placesOf (pCap P) (pNb P) (pT P) t)) ->
  exists new, rr17bRun ss P rd R S old = Done (old ++ new) /\ new ≡ₚ commonPositions R S.
Proof.
  intros Hss HR HS HD HB ND HF. destruct (run_facts ss P rd R S old Hss HR HS HD HF) as (asg & row & pl & tab & chans & F & HC & E). rewrite E. eexists. split; [reflexivity|].
  pose proof HR as (_ & _ & _ & HT & _). pose proof HS as (_ & _ & _ & _ & _ & _ & _ & HLS & _). pose proof HD as (_ & _ & _ & _ & _ & _ & D7 & _).
  rewrite (map_concat_omap (fun t => rowMatch (tryTag (pCom P) R (tab t)) (pCap P)) chans).
  set (mA := fun r => N.of_nat <$> rowMatch (tryTag (pCom P) R (tab 0%nat)) (pCap P) r).
  assert (forall t r, (t < pT P)%nat -> r ∈ chans t -> exists j, (j < pN P)%nat /\ r = row j) as CH.
  { intros t r Ht Hr. assert (r ∈ concat (map chans (seq 0 (pT P)))) as H.
    { apply elem_of_concat. exists (chans t). split; [done|]. apply elem_of_list_fmap. exists t. split; [done|]. apply elem_of_seq. lia. }
    rewrite HC in H. apply elem_of_list_fmap in H as (j & -> & Hj). apply elem_of_seq in Hj. exists j. split; [lia|done]. }
  rewrite (map_ext_in _ (fun t => omap mA (chans t))).
  2: { intros t Ht. apply elem_of_list_In in Ht. rewrite D7 in Ht. apply elem_of_seq in Ht. apply omap_ext_in. intros r Hr. destruct (CH t r ltac:(lia) Hr) as (j & Hj & ->).
    unfold mA. rewrite !(match_posIn P rd R S asg row pl tab HR HS HD F) by (done || lia). done. }
  rewrite (Permutation_map (fun t => omap mA (chans t)) D7). rewrite <- (map_map chans (omap mA)), <- Rr17a_Proofs.omap_concat, (Rr17a_Proofs.omap_perm mA _ _ HC), (omap_map row mA), commonPositions_seq, HLS.
  erewrite omap_ext_in; [reflexivity|]. intros j Hj. apply elem_of_seq in Hj. unfold mA. by rewrite (match_posIn P rd R S asg row pl tab HR HS HD F) by (done || lia).
Qed.

Lemma run_unfit ss P rd R S old : paramsOk P R -> paramsOk P S -> randOk P rd ->
  (exists t, (t < pT P)%nat /\ length (sendPlacesOf (pCap P) (pNb P) (pT P) t) <> length (placesOf (pCap P) (pNb P) (pT P) t)) -> rr17bRun ss P rd R S old = Thrown old.
Proof.
  intros HR HS (_ & _ & D3 & D4 & _) (t & Ht & HN). pose proof (toA_ok P R HR) as AR. pose proof (toA_ok P S HS) as AS.
  pose proof HR as (Hn & Hnb & Hcap & HT & HM & Hw & Hw2 & HLR & HCR & HE & HC). pose proof HS as (_ & _ & _ & _ & _ & _ & _ & HLS & HCS & _ & _).
  destruct (Rr17a_Proofs.mkBins_ok (toA P) R _ AR D3) as (binsR & ER & OR). destruct (Rr17a_Proofs.mkBins_ok (toA P) S _ AS D4) as (binsS & ES & OS).
  change (Rr17a_Model.mkBins (toA P) R (rOrdR rd)) with (mkBins P R (rOrdR rd)) in ER. change (Rr17a_Model.mkBins (toA P) S (rOrdS rd)) with (mkBins P S (rOrdS rd)) in ES.
  unfold rr17bRun. rewrite HLR, HLS, Nat.eqb_refl. cbn [negb orb]. assert ((16 <? pMask P) = false) as -> by (apply N.ltb_ge; done). rewrite ER, ES.
  assert (forallb (correctionsFit (pCap P) (pNb P) (pT P)) (seq 0 (pT P)) = false) as ->; [|done].
  apply not_true_is_false. intros H. rewrite forallb_forall in H. specialize (H t). rewrite in_seq in H. specialize (H ltac:(lia)). apply Nat.eqb_eq in H. congruence.
Qed.

Lemma fit_dec P : (forall t, (t < pT P)%nat -> length (sendPlacesOf (pCap P) (pNb P) (pT P) t) = length (placesOf (pCap P) (pNb P) (pT P) t)) \/
  exists t, (t < pT P)%nat /\ length (sendPlacesOf (pCap P) (pNb P) (pT P) t) <> length (placesOf (pCap P) (pNb P) (pT P) t).
Proof.
  destruct (forallb (fun t => length (sendPlacesOf (pCap P) (pNb P) (pT P) t) =? length (placesOf (pCap P) (pNb P) (pT P) t))%nat (seq 0 (pT P))) eqn:E.
  - left. intros t Ht. rewrite forallb_forall in E. specialize (E t). rewrite in_seq in E. apply Nat.eqb_eq, E. lia.
  - right. apply not_true_iff_false in E. rewrite forallb_forall in E. destruct (decide (Exists (fun t => length (sendPlacesOf (pCap P) (pNb P) (pT P) t) <> length (placesOf (pCap P) (pNb P) (pT P) t)) (seq 0 (pT P)))) as [H|H].
    + apply Exists_exists in H as (t & Ht & H). apply elem_of_seq in Ht. exists t. split; [lia|done].
    + exfalso. apply E. intros t Ht. apply Nat.eqb_eq. apply not_Exists_Forall in H; [|intros x; apply _]. rewrite Forall_forall in H. apply elem_of_list_In in Ht. specialize (H t Ht). cbn in H. by apply dec_stable in H.
Qed.

(** Every completed run is exact, and the run completes iff every channel has as many bins at both parties. *)
Lemma run_exact ss P rd R S old res : (0 < ss)%nat -> paramsOk P R -> paramsOk P S -> randOk P rd -> binding P rd R S -> NoDup R ->
  rr17bRun ss P rd R S old = Done res -> exists new, res = old ++ new /\ new ≡ₚ commonPositions R S.
Proof.
  intros Hss HR HS HD HB ND H. destruct (fit_dec P) as [HF|HF].
  - destruct (run_fit ss P rd R S old Hss HR HS HD HB ND HF) as (new & E & Hp). rewrite E in H. injection H as <-. eauto.
  - rewrite run_unfit in H by done. done.
Qed.

Lemma run_divides ss P rd R S old : (0 < ss)%nat -> paramsOk P R -> paramsOk P S -> randOk P rd -> binding P rd R S -> NoDup R -> (N.of_nat (pT P) | N.of_nat (pNb P)) ->
  exists new, rr17bRun ss P rd R S old = Done (old ++ new) /\ new ≡ₚ commonPositions R S.
Proof.
  intros Hss HR HS HD HB ND HDv. apply run_fit; try done. intros t Ht. rewrite sendPlacesOf_eq; try done. apply HR.
Qed.
