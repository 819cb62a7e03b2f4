(** Proofs about PRTY. *)
From Verif Require Import Base Partition_Model Partition_Proofs Ecdh_Model Ecdh_Proofs File_Model File_Spec File_Proofs Balanced_Model Balanced_Spec Balanced_Proofs
  Prty_Model Prty_Spec.

Local Arguments prfBlk : simpl never.
Local Arguments choiceBlk : simpl never.
Local Arguments oneBlk : simpl never.
Local Arguments truncBlk : simpl never.

(** ** Rows *)

Lemma oneBlk_pow i : (i < 128)%nat -> oneBlk i = 2 ^ N.of_nat i.
Proof.
  intros Hi. assert (forallb (fun i => oneBlk i =? 2 ^ N.of_nat i) (seq 0 128) = true) as H by (vm_compute; done).
  rewrite forallb_forall in H. specialize (H i). rewrite N.eqb_eq in H. apply H. apply in_seq. lia.
Qed.

Lemma fold_lxor_bit {A} (f : A -> N) (l : list A) k :
  N.testbit (foldr (fun i acc => N.lxor acc (f i)) 0 l) k = foldr xorb false (map (fun i => N.testbit (f i) k) l).
Proof. induction l as [|a l IH]; cbn; [apply N.bits_0|]. rewrite N.lxor_spec, IH. apply xorb_comm. Qed.

(** The XOR of bits that are set at one position at most. *)
Lemma xorb_one (l : list nat) (p : nat -> bool) (k : nat) : NoDup l -> (forall i, i ∈ l -> i <> k -> p i = false) ->
  foldr xorb false (map p l) = bool_decide (k ∈ l) && p k.
Proof.
  induction l as [|a l IH]; intros Hnd Hp; [done|]. cbn. apply NoDup_cons in Hnd as [Ha Hnd]. rewrite IH; [|done|intros i Hi; apply Hp; by right].
  destruct (decide (a = k)) as [-> |Hne].
  - rewrite (bool_decide_eq_false_2 (k ∈ l)), (bool_decide_eq_true_2 (k ∈ k :: l)) by (done || left). cbn. by rewrite xorb_false_r.
  - rewrite (Hp a) by (done || left). rewrite xorb_false_l. f_equal. apply bool_decide_ext. rewrite elem_of_cons. naive_solver.
Qed.

Lemma land_pow_bit x i k : N.testbit (N.land x (2 ^ i)) k = (i =? k) && N.testbit x i.
Proof. rewrite N.land_spec, N.pow2_bits_eqb. destruct (N.eqb_spec i k) as [-> |]; [apply andb_true_r|apply andb_false_r]. Qed.

Lemma prfBlk_bit aes F j x k : (k < 128)%nat -> N.testbit (prfBlk aes F j x) (N.of_nat k) = (128 * j + k <? F)%nat && N.testbit (aes (128 * j + k)%nat x) (N.of_nat k).
Proof.
  intros Hk. rewrite (Nat.add_comm (128 * j)). unfold prfBlk, prfCols, columns. rewrite (fold_lxor_bit (fun i => N.land (aes (i + 128 * j)%nat x) (oneBlk i))).
  rewrite (xorb_one _ _ k); [|apply NoDup_seq|].
  - rewrite oneBlk_pow, land_pow_bit, N.eqb_refl, andb_true_l by done. f_equal.
    destruct (Nat.ltb_spec (k + 128 * j) F); [apply bool_decide_eq_true_2|apply bool_decide_eq_false_2]; rewrite elem_of_seq; lia.
  - intros i Hi Hne. apply elem_of_seq in Hi. rewrite oneBlk_pow, land_pow_bit by lia.
    destruct (N.eqb_spec (N.of_nat i) (N.of_nat k)); [lia|done].
Qed.

Lemma fold_high {A} (f : A -> N) (l : list A) k : (forall i, i ∈ l -> N.testbit (f i) k = false) -> N.testbit (foldr (fun i acc => N.lxor acc (f i)) 0 l) k = false.
Proof.
  intros H. rewrite fold_lxor_bit. induction l as [|a l IH]; [done|]. cbn. rewrite H by left. rewrite IH; [done|]. intros i Hi. apply H. by right.
Qed.

Lemma prfBlk_high aes F j x k : 128 <= k -> N.testbit (prfBlk aes F j x) k = false.
Proof.
  intros Hk. unfold prfBlk, prfCols, columns. apply (fold_high (fun i => N.land (aes (i + 128 * j)%nat x) (oneBlk i))). intros i Hi.
  apply elem_of_seq in Hi. rewrite oneBlk_pow, land_pow_bit by lia. destruct (N.eqb_spec (N.of_nat i) k); [lia|done].
Qed.

(** A block whose columns do not change the item. *)
Lemma prfBlk_item aes F x : (128 <= F)%nat -> (forall k, (k < 128)%nat -> N.testbit (aes k x) (N.of_nat k) = N.testbit x (N.of_nat k)) -> prfBlk aes F 0 x = x mod 2 ^ 128.
Proof.
  intros HF H. apply N.bits_inj. intros k. destruct (N.ltb_spec k 128) as [Hk|Hk].
  - rewrite N.mod_pow2_bits_low by done. replace k with (N.of_nat (N.to_nat k)) by apply N2Nat.id. rewrite prfBlk_bit by lia. cbn [Nat.mul]. rewrite Nat.add_0_l, H by lia. destruct (Nat.ltb_spec (N.to_nat k) F); [done|lia].
  - rewrite N.mod_pow2_bits_high by done. by apply prfBlk_high.
Qed.

Lemma choiceBlk_bit P F j k : (k < 128)%nat -> N.testbit (choiceBlk P F j) (N.of_nat k) = (128 * j + k <? F)%nat && choice P (128 * j + k)%nat.
Proof.
  intros Hk. rewrite (Nat.add_comm (128 * j)). unfold choiceBlk, choiceCols, columns.
  assert (forall l, N.testbit (foldr (fun i acc => N.lor acc (if choice P (i + 128 * j)%nat then 2 ^ N.of_nat i else 0)) 0 l) (N.of_nat k) =
    bool_decide (k ∈ l) && choice P (k + 128 * j)%nat) as H.
  { induction l as [|a l IH]; [apply N.bits_0|]. cbn [foldr]. rewrite N.lor_spec, IH. destruct (decide (a = k)) as [-> |Hne].
    - rewrite (bool_decide_eq_true_2 (k ∈ k :: l)) by left. destruct (choice P (k + 128 * j)%nat); [by rewrite N.pow2_bits_eqb, N.eqb_refl, orb_true_r|].
      rewrite N.bits_0, orb_false_r. apply andb_false_r.
    - assert (N.testbit (if choice P (a + 128 * j)%nat then 2 ^ N.of_nat a else 0) (N.of_nat k) = false) as ->.
      { destruct (choice P (a + 128 * j)%nat); [|apply N.bits_0]. rewrite N.pow2_bits_eqb. destruct (N.eqb_spec (N.of_nat a) (N.of_nat k)); [lia|done]. }
      rewrite orb_false_r. f_equal. apply bool_decide_ext. rewrite elem_of_cons. naive_solver. }
  rewrite H. f_equal. destruct (Nat.ltb_spec (k + 128 * j) F); [apply bool_decide_eq_true_2|apply bool_decide_eq_false_2]; rewrite elem_of_seq; lia.
Qed.

(** The heart of the protocol: [Q + s (T + U) = T], block by block. *)
Lemma blk_agree P F j x : N.lxor (prfBlk (aesQ P) F j x) (N.land (N.lxor (prfBlk (aesT P) F j x) (prfBlk (aesU P) F j x)) (choiceBlk P F j)) = prfBlk (aesT P) F j x.
Proof.
  apply N.bits_inj. intros k. rewrite N.lxor_spec, N.land_spec, N.lxor_spec. destruct (N.lt_ge_cases k 128) as [Hk|Hk].
  - rewrite <- (N2Nat.id k). rewrite !prfBlk_bit, choiceBlk_bit by lia. unfold aesQ.
    destruct (_ <? F)%nat; cbn; [|done]. destruct (choice P _); destruct (N.testbit (aesT P _ _) _), (N.testbit (aesU P _ _) _); done.
  - rewrite !prfBlk_high by done. cbn. done.
Qed.

Lemma rows_agree P F x :
  zip_with N.lxor (prfRow (aesQ P) F x) (zip_with N.land (xorRows (prfRow (aesT P) F x) (prfRow (aesU P) F x)) (map (choiceBlk P F) (seq 0 4))) = prfRow (aesT P) F x.
Proof.
  unfold prfRow, xorRows. cbn [seq map zip_with]. repeat f_equal; apply blk_agree.
Qed.

Lemma masks_agree P F R x : R = xorRows (prfRow (aesT P) F x) (prfRow (aesU P) F x) -> sendMask P F R x = recvMask P F x.
Proof. intros ->. unfold sendMask, recvMask. by rewrite rows_agree. Qed.

Lemma lt_pow_bits x n : (forall k, n <= k -> N.testbit x k = false) -> x < 2 ^ n.
Proof.
  intros H. destruct (N.eq_dec x 0) as [-> |Hx]; [lia|]. apply N.log2_lt_pow2; [lia|]. apply N.nle_gt. intros Hle.
  specialize (H (N.log2 x) Hle). rewrite N.bit_log2 in H by done. done.
Qed.

Lemma row_fits P F x : (384 <= F <= 512)%nat -> rowFits F (xorRows (prfRow (aesT P) F x) (prfRow (aesU P) F x)).
Proof.
  intros HF. unfold prfRow, xorRows. cbn [seq map zip_with]. do 4 eexists. split; [done|].
  assert (forall j, N.lxor (prfBlk (aesT P) F j x) (prfBlk (aesU P) F j x) < 2 ^ 128) as Hb.
  { intros j. apply lt_pow_bits. intros k Hk. by rewrite N.lxor_spec, !prfBlk_high. }
  split; [apply Hb|]. split; [apply Hb|]. split; [apply Hb|]. apply lt_pow_bits. intros k Hk. rewrite N.lxor_spec.
  destruct (N.lt_ge_cases k 128) as [H|H]; [|by rewrite !prfBlk_high]. rewrite <- (N2Nat.id k), !prfBlk_bit by lia.
  destruct (Nat.ltb_spec (128 * 3 + N.to_nat k) F); [lia|done].
Qed.

Lemma fieldSize_range n : (384 <= fieldSizeOf n <= 512)%nat.
Proof. unfold fieldSizeOf. repeat (destruct (_ <=? _)); lia. Qed.

Lemma bin_mask P F blks x : (384 <= F <= 512)%nat -> interpolates P F -> Forall (fun y => y < 2 ^ 128) blks -> NoDup blks -> x ∈ blks ->
  sendMask P F (interp P (binPoints P F blks) x) x = recvMask P F x.
Proof.
  intros HF HI Hb Hnd Hx. apply masks_agree. apply HI.
  - unfold binPoints. rewrite map_map. cbn. by rewrite map_id.
  - unfold binPoints. apply Forall_forall. intros p Hp. apply elem_of_list_fmap in Hp as (y & -> & Hy). rewrite Forall_forall in Hb. split; [by apply Hb|by apply row_fits].
  - unfold binPoints. apply elem_of_list_fmap. by exists x.
Qed.

(** A row as a whole: bit [i] is bit [i mod 128] of the cipher text of column [i]. *)
Lemma row_bits aes F x i : (i < 512)%nat -> rowBit (prfRow aes F x) i = (i <? F)%nat && N.testbit (aes i x) (N.of_nat (i mod 128)).
Proof.
  intros Hi. unfold rowBit, prfRow. assert (i / 128 < 4)%nat as Hj by (apply Nat.div_lt_upper_bound; lia).
  assert (nth (i / 128) (map (fun j => prfBlk aes F j x) (seq 0 4)) 0 = prfBlk aes F (i / 128) x) as ->.
  { rewrite (nth_indep _ 0 (prfBlk aes F 0 x)) by (rewrite map_length, seq_length; lia). rewrite (map_nth (fun j => prfBlk aes F j x)). by rewrite seq_nth. }
  rewrite prfBlk_bit by (apply Nat.mod_upper_bound; lia). by rewrite <- (Nat.div_mod_eq i 128).
Qed.

Lemma trunc_id P F x : (384 <= F <= 512)%nat -> truncRow F (prfRow (aesT P) F x) = prfRow (aesT P) F x.
Proof.
  intros HF. unfold prfRow, truncRow. cbn [seq map imap Nat.eqb]. unfold imap. cbn. repeat f_equal. apply N.bits_inj. intros k. rewrite N.land_spec.
  destruct (N.lt_ge_cases k 128) as [Hk|Hk]; [|by rewrite prfBlk_high]. rewrite <- (N2Nat.id k). rewrite prfBlk_bit by lia.
  destruct (Nat.ltb_spec (128 * 3 + N.to_nat k) F); [|done]. cbn. rewrite N2Nat.id.
  assert (N.testbit (truncBlk F) k = true) as ->; [|apply andb_true_r].
  unfold truncBlk. assert (forall l, NoDup l -> Forall (fun i => i < 128)%nat l -> N.testbit (foldr N.lxor 0 (map oneBlk l)) k = bool_decide (N.to_nat k ∈ l)) as ->.
  - induction l as [|a l IH]; intros Hnd HFo; [apply N.bits_0|]. cbn [map foldr]. apply NoDup_cons in Hnd as [Ha Hnd]. apply Forall_cons in HFo as [Hlt HFo].
    rewrite N.lxor_spec, IH, oneBlk_pow, N.pow2_bits_eqb by done. destruct (N.eqb_spec (N.of_nat a) k) as [<-|Hne].
    + rewrite Nat2N.id, (bool_decide_eq_false_2 (a ∈ l)), (bool_decide_eq_true_2 (a ∈ a :: l)) by (done || left). done.
    + rewrite xorb_false_l. apply bool_decide_ext. rewrite elem_of_cons. naive_solver lia.
  - apply bool_decide_eq_true_2. apply elem_of_seq. lia.
  - apply NoDup_seq.
  - apply Forall_forall. intros i Hi%elem_of_seq. lia.
Qed.

(** ** Matching *)

Lemma existsb_key (m : list (N * nat)) k : existsb (fun e' : N * nat => e'.1 mod two64 =? k) m = bool_decide (k ∈ map (fun e : N * nat => e.1 mod two64) m).
Proof.
  induction m as [|e m IH]; [done|]. cbn [existsb map]. rewrite IH. destruct (N.eqb_spec (e.1 mod two64) k) as [<-|Hne].
  - rewrite (bool_decide_eq_true_2 (_ ∈ _ :: _)) by left. done.
  - cbn. apply bool_decide_ext. rewrite elem_of_cons. naive_solver.
Qed.

Lemma emplace_nodup l m : NoDup (map (fun e : N * nat => e.1 mod two64) (m ++ l)) -> emplaceAll l m = m ++ l.
Proof.
  revert m. induction l as [|e l IH]; intros m H; cbn; [by rewrite app_nil_r|]. rewrite existsb_key, bool_decide_eq_false_2.
  - rewrite IH; [by rewrite <- app_assoc|]. by rewrite <- app_assoc.
  - rewrite map_app in H. apply NoDup_app in H as (_ & H & _). intros Hin. apply (H _ Hin). left.
Qed.

Lemma localMap_eq h es : keysDistinct es -> localMap h es = map snd (filter (fun e : entry => e.1 = h) es).
Proof.
  intros H. unfold localMap. rewrite emplace_nodup; [done|]. cbn [app]. unfold keysDistinct in H. rewrite map_map.
  induction es as [|e es IH]; [constructor|]. cbn [map] in H. apply NoDup_cons in H as [H1 H2]. rewrite filter_cons. destruct (decide (e.1 = h)) as [E|E]; [|by apply IH].
  cbn [map]. apply NoDup_cons. split; [|by apply IH]. intros Hin. apply H1. apply elem_of_list_fmap in Hin as (e' & Ek & He'). apply elem_of_list_filter in He' as [E' He'].
  apply elem_of_list_fmap. exists e'. split; [|done]. rewrite E, E'. f_equal. exact Ek.
Qed.

Lemma leBytes_low n b : leBytes (bytesLE n b) = b mod 2 ^ (8 * N.of_nat n).
Proof.
  revert b. induction n as [|n IH]; intros b; [cbn; by rewrite N.mod_1_r|]. rewrite bytesLE_S. cbn [leBytes]. rewrite IH.
  replace (2 ^ (8 * N.of_nat (S n))) with (256 * 2 ^ (8 * N.of_nat n)).
  - rewrite N.mod_mul_r by (try apply N.pow_nonzero; lia). done.
  - replace (8 * N.of_nat (S n)) with (8 + 8 * N.of_nat n) by lia. rewrite N.pow_add_r. done.
Qed.

Lemma bytesLE_take n k b : (k <= n)%nat -> take k (bytesLE n b) = bytesLE k b.
Proof.
  intros H. unfold bytesLE. rewrite <- fmap_take. change (fmap ?f ?l) with (map f l). f_equal.
  replace n with (k + (n - k))%nat by lia. rewrite seq_app. rewrite take_app_alt; [done|]. by rewrite seq_length.
Qed.

(** The buffer of a list of masks. *)
Definition buffer (hb : nat) (vs : list N) : list N := concat (map (bytesLE hb) vs).

Lemma buffer_length hb vs : length (buffer hb vs) = (hb * length vs)%nat.
Proof. unfold buffer. apply concat_bytes_length. Qed.

Lemma peek_app pre buf off k : peek (pre ++ buf) (length pre + off) k = peek buf off k.
Proof.
  unfold peek. rewrite app_length. destruct (Nat.leb_spec (off + k) (length buf)), (Nat.leb_spec (length pre + off + k) (length pre + length buf)); try lia; [|done].
  do 3 f_equal. rewrite drop_app_ge by lia. f_equal. lia.
Qed.

Lemma peek_head hb v vs k : (k <= hb)%nat -> peek (buffer hb (v :: vs)) 0 k = Some (v mod 2 ^ (8 * N.of_nat k)).
Proof.
  intros H. unfold peek. rewrite buffer_length. cbn [length]. destruct (Nat.leb_spec (0 + k) (hb * S (length vs))); [|lia].
  rewrite drop_0. unfold buffer. cbn [map concat]. rewrite take_app_le by (rewrite bytesLE_length; lia). by rewrite bytesLE_take, leBytes_low.
Qed.

Lemma peek_at pre hb v vs k : (k <= hb)%nat -> peek (pre ++ buffer hb (v :: vs)) (length pre) k = Some (v mod 2 ^ (8 * N.of_nat k)).
Proof. intros H. rewrite <- (Nat.add_0_r (length pre)) at 1. rewrite peek_app. by apply peek_head. Qed.

Definition matches (m : list (N * nat)) (hb : nat) (v : N) : list nat := map snd (filter (fun e => e.1 mod 2 ^ (8 * N.of_nat hb) = v mod 2 ^ (8 * N.of_nat hb)) m).

Lemma low_key hb a b : (8 <= hb)%nat -> a mod 2 ^ (8 * N.of_nat hb) = b mod 2 ^ (8 * N.of_nat hb) -> a mod 2 ^ 64 = b mod 2 ^ 64.
Proof.
  intros H E. assert (2 ^ (8 * N.of_nat hb) = 2 ^ 64 * 2 ^ (8 * N.of_nat hb - 64)) as Hp by (rewrite <- N.pow_add_r; f_equal; lia).
  rewrite Hp in E. assert (forall c, c mod (2 ^ 64 * 2 ^ (8 * N.of_nat hb - 64)) mod 2 ^ 64 = c mod 2 ^ 64) as Hc.
  { intros c. rewrite N.mod_mul_r by (try apply N.pow_nonzero; lia). rewrite (N.mul_comm (2 ^ 64)), N.mod_add by lia. apply N.mod_mod. lia. }
  rewrite <- (Hc a), <- (Hc b), E. done.
Qed.

Lemma find_nodup (m : list (N * nat)) e : NoDup (map (fun e : N * nat => e.1 mod two64) m) -> e ∈ m -> find (fun e' : N * nat => e'.1 mod two64 =? e.1 mod two64) m = Some e.
Proof.
  induction m as [|a m IH]; intros Hnd He; [by apply elem_of_nil in He|]. cbn [map] in Hnd. apply NoDup_cons in Hnd as [Ha Hnd]. cbn [find].
  destruct (N.eqb_spec (a.1 mod two64) (e.1 mod two64)) as [E|E].
  - apply elem_of_cons in He as [-> |He]; [done|]. exfalso. apply Ha. rewrite E. apply (elem_of_list_fmap_1 (fun e : N * nat => e.1 mod two64)). done.
  - apply elem_of_cons in He as [-> |He]; [done|]. by apply IH.
Qed.

Lemma matches_find (m : list (N * nat)) hb v : (8 <= hb)%nat -> NoDup (map (fun e : N * nat => e.1 mod two64) m) ->
  matches m hb v = match find (fun e => e.1 mod two64 =? v mod 2 ^ 64) m with
                   | Some e => if v mod 2 ^ (8 * N.of_nat hb) =? low hb e.1 then [e.2] else []
                   | None => []
                   end.
Proof.
  intros Hhb. unfold matches. induction m as [|a m IH]; intros Hnd; [done|]. cbn [map] in Hnd. apply NoDup_cons in Hnd as [Ha Hnd]. cbn [find].
  rewrite filter_cons. destruct (N.eqb_spec (a.1 mod two64) (v mod 2 ^ 64)) as [E|E].
  - assert (filter (fun e : N * nat => e.1 mod 2 ^ (8 * N.of_nat hb) = v mod 2 ^ (8 * N.of_nat hb)) m = []) as Hnil.
    { apply elem_of_nil_inv. intros e He. apply elem_of_list_filter in He as [Ee He]. apply low_key in Ee; [|done]. apply Ha.
      apply elem_of_list_fmap. exists e. split; [|done]. rewrite E. unfold two64. by rewrite Ee. }
    rewrite Hnil. unfold low. case_decide as Hd; destruct (N.eqb_spec (v mod 2 ^ (8 * N.of_nat hb)) (a.1 mod 2 ^ (8 * N.of_nat hb))); try done; congruence.
  - rewrite decide_False; [by apply IH|]. intros Hd. apply E. unfold two64. by apply (low_key hb).
Qed.

Lemma scanLarge_ok m hb : (8 <= hb)%nat -> NoDup (map (fun e : N * nat => e.1 mod two64) m) ->
  forall vs pre, scanLarge m hb (pre ++ buffer hb vs) (length pre) (length vs) = Some (concat (map (matches m hb) vs)).
Proof.
  intros Hhb Hnd vs. induction vs as [|v vs IH]; intros pre; [done|]. cbn [length scanLarge]. rewrite peek_at by done. change (8 * N.of_nat 8) with 64.
  assert (scanLarge m hb (pre ++ buffer hb (v :: vs)) (length pre + hb) (length vs) = Some (concat (map (matches m hb) vs))) as Hrest.
  { specialize (IH (pre ++ bytesLE hb v)). rewrite app_length, bytesLE_length, <- app_assoc in IH. exact IH. }
  cbn [map concat]. rewrite (matches_find m hb v Hhb Hnd). destruct (find _ m) as [e|] eqn:Ef; [|exact Hrest].
  rewrite peek_at by done. rewrite Hrest. by destruct (_ =? _).
Qed.

Lemma scanInner_over m hb buf off : (length buf < off + hb * length m)%nat -> (0 < length m)%nat -> scanInner m hb buf off = None.
Proof.
  revert off. induction m as [|e m IH]; intros off H Hm; [cbn in Hm; lia|]. cbn [scanInner]. unfold peek. cbn [length] in H.
  destruct (Nat.leb_spec (off + hb) (length buf)); [|done]. destruct m as [|e' m]; [cbn in H; lia|]. rewrite IH; [done| |cbn; lia]. cbn [length] in *. lia.
Qed.

Lemma scanInner_off m hb buf off out off' : scanInner m hb buf off = Some (out, off') -> off' = (off + hb * length m)%nat.
Proof.
  revert off out off'. induction m as [|e m IH]; intros off out off'; cbn [scanInner length]; [intros [= <- <-]; lia|].
  destruct (peek buf off hb); [|done]. destruct (scanInner m hb buf (off + hb)) as [[o f]|] eqn:E; [|done]. intros [= <- <-]. apply IH in E. lia.
Qed.

Lemma scanSmall_over m hb buf off cnt : (0 < cnt)%nat -> (0 < length m)%nat -> (length buf < off + hb * length m * cnt)%nat -> scanSmall m hb buf off cnt = None.
Proof.
  revert off. induction cnt as [|cnt IH]; intros off Hc Hm H; [lia|]. cbn [scanSmall].
  destruct (scanInner m hb buf off) as [[out off']|] eqn:E; [|done]. pose proof (scanInner_off _ _ _ _ _ _ E) as ->.
  destruct cnt as [|cnt].
  - rewrite scanInner_over in E; [done|lia|done].
  - rewrite IH; [done|lia|done|nia].
Qed.

Lemma scanSmall_one e hb : forall vs pre, scanSmall [e] hb (pre ++ buffer hb vs) (length pre) (length vs) = Some (concat (map (matches [e] hb) vs)).
Proof.
  induction vs as [|v vs IH]; intros pre; [done|]. cbn [length scanSmall scanInner]. rewrite peek_at by done.
  specialize (IH (pre ++ bytesLE hb v)). rewrite app_length, bytesLE_length, <- app_assoc in IH. unfold buffer in IH |- *. cbn [map concat]. rewrite IH.
  do 2 f_equal. unfold matches, low. rewrite filter_cons, filter_nil. case_decide as Hd; destruct (N.eqb_spec (v mod 2 ^ (8 * N.of_nat hb)) (e.1 mod 2 ^ (8 * N.of_nat hb))); try done; congruence.
Qed.

Lemma scanSmall_nil hb buf off cnt : scanSmall [] hb buf off cnt = Some [].
Proof. revert off. induction cnt as [|cnt IH]; intros off; [done|]. cbn. by rewrite IH. Qed.

(** Steps and threads. *)
Lemma chunks_concat step fuel l : (0 < step)%nat -> (length l <= fuel)%nat -> concat (chunks fuel step l) = l.
Proof.
  intros Hs. revert l. induction fuel as [|f IH]; intros l Hl; [by destruct l; [|cbn in Hl; lia]|]. destruct l as [|a l]; [done|].
  cbn [chunks concat]. rewrite IH; [apply take_drop|]. rewrite drop_length. cbn in *. lia.
Qed.

Section matching.
Variables (ord : N -> list (N * nat) -> list (N * nat)) (es : list entry) (hb : nat) (gh : N -> list N) (g : N -> N -> list nat).
Hypothesis Hscan : forall h vs, h = 0 \/ h = 1 -> scanMsg (ord h) (localMap h es) hb (length vs) (buffer hb vs) = Some (concat (map (g h) vs)).

Let G h ids := concat (map (g h) (map (fun i => nth i (gh h) 0) ids)).

Lemma recvSteps_ok steps :
  recvSteps ord es hb steps (concat (map (fun ids => map (fun h => concat (map (fun i => bytesLE hb (nth i (gh h) 0)) ids)) [0; 1]) steps)) =
    Some (concat (map (fun ids => G 0 ids ++ G 1 ids) steps)).
Proof.
  induction steps as [|ids steps IH]; [done|]. cbn [map concat app recvSteps] in IH |- *.
  assert (forall h, h = 0 \/ h = 1 -> scanMsg (ord h) (localMap h es) hb (length ids) (concat (map (fun i => bytesLE hb (nth i (gh h) 0)) ids)) = Some (G h ids)) as H.
  { intros h Hh. pose proof (Hscan h (map (fun i => nth i (gh h) 0) ids) Hh) as H. rewrite map_length in H. unfold buffer in H. rewrite map_map in H. exact H. }
  rewrite !H by auto. rewrite IH. by rewrite <- app_assoc.
Qed.

Lemma concat_swap {A} (f0 f1 : A -> list nat) l : concat (map (fun a => f0 a ++ f1 a) l) ≡ₚ concat (map f0 l) ++ concat (map f1 l).
Proof. clear. induction l as [|a l IH]; [done|]. cbn. rewrite IH. solve_Permutation. Qed.

Lemma G_concat h (ls : list (list nat)) : concat (map (G h) ls) = G h (concat ls).
Proof using ord es hb gh g. clear Hscan. unfold G. induction ls as [|l ls IH]; [done|]. cbn. by rewrite IH, !map_app, concat_app. Qed.

Lemma G_all h n : length (gh h) = n -> G h (seq 0 n) = concat (map (g h) (gh h)).
Proof using ord es hb gh g.
  clear Hscan. intros E. unfold G. f_equal. f_equal. apply list_eq. intros i. rewrite list_lookup_fmap. destruct (decide (i < n)%nat) as [Hi|Hi].
  - rewrite lookup_seq_lt by done. cbn. destruct (lookup_lt_is_Some_2 (gh h) i) as [x Hx]; [lia|]. rewrite Hx. f_equal. by apply nth_lookup_Some.
  - rewrite !lookup_ge_None_2; [done| |]; [|rewrite seq_length]; lia.
Qed.

Lemma matchAll_ok step T n : (0 < step)%nat -> (0 < T)%nat -> N.of_nat n * N.of_nat T < 2 ^ 64 -> length (gh 0) = n -> length (gh 1) = n ->
  exists out, matchAll ord step hb T n es gh = Done out /\ out ≡ₚ concat (map (g 0) (gh 0)) ++ concat (map (g 1) (gh 1)).
Proof using Hscan.
  intros Hs HT Hw E0 E1. unfold matchAll, sendThread. rewrite E0.
  rewrite (mapM_map (fun t => recvSteps ord es hb (stepsOf step n T t) (concat (map (fun ids => map (fun h => concat (map (fun i => bytesLE hb (nth i (gh h) 0)) ids)) [0; 1]) (stepsOf step n T t))))
    (fun t => concat (map (fun ids => G 0 ids ++ G 1 ids) (stepsOf step n T t)))) by (intros; apply recvSteps_ok).
  eexists. split; [reflexivity|].
  assert (forall t, concat (map (fun ids => G 0 ids ++ G 1 ids) (stepsOf step n T t)) ≡ₚ G 0 (idxRange n T t) ++ G 1 (idxRange n T t)) as Ht.
  { intros t. rewrite concat_swap, !G_concat. unfold stepsOf. by rewrite chunks_concat. }
  transitivity (concat (map (fun t => G 0 (idxRange n T t) ++ G 1 (idxRange n T t)) (seq 0 T))).
  { induction (seq 0 T) as [|t l IH]; [done|]. cbn [map concat]. by rewrite Ht, IH. }
  rewrite concat_swap. rewrite <- !(map_map (idxRange n T)), !G_concat, idxRange_concat by done. by rewrite !G_all.
Qed.
End matching.

Lemma filter_snd h hb v (es : list entry) :
  matches (map snd (filter (fun e : entry => e.1 = h) es)) hb v = hits es hb h v.
Proof.
  unfold matches, hits. induction es as [|e es IH]; [done|]. rewrite !filter_cons. destruct (decide (e.1 = h)) as [E|E].
  - cbn [map]. rewrite filter_cons. destruct (decide (e.2.1 mod 2 ^ (8 * N.of_nat hb) = v mod 2 ^ (8 * N.of_nat hb))) as [E'|E'].
    + rewrite decide_True by done. cbn [map]. f_equal. exact IH.
    + rewrite decide_False by naive_solver. exact IH.
  - rewrite decide_False by naive_solver. exact IH.
Qed.

Lemma keys_filter h es : keysDistinct es -> NoDup (map (fun e : N * nat => e.1 mod two64) (map snd (filter (fun e : entry => e.1 = h) es))).
Proof.
  intros H. rewrite map_map. unfold keysDistinct in H. induction es as [|e es IH]; [constructor|]. cbn [map] in H. apply NoDup_cons in H as [H1 H2].
  rewrite filter_cons. destruct (decide (e.1 = h)) as [E|E]; [|by apply IH]. cbn [map]. apply NoDup_cons. split; [|by apply IH]. intros Hin. apply H1.
  apply elem_of_list_fmap in Hin as (e' & Ek & He'). apply elem_of_list_filter in He' as [E' He']. apply elem_of_list_fmap. exists e'. split; [|done].
  rewrite E, E'. f_equal. exact Ek.
Qed.

Lemma match_large ord step hb T n es gh : (8 <= hb)%nat -> keysDistinct es -> (0 < step)%nat -> (0 < T)%nat -> N.of_nat n * N.of_nat T < 2 ^ 64 ->
  length (gh 0) = n -> length (gh 1) = n ->
  exists out, matchAll ord step hb T n es gh = Done out /\ out ≡ₚ concat (map (hits es hb 0) (gh 0)) ++ concat (map (hits es hb 1) (gh 1)).
Proof.
  intros Hhb Hk Hs HT Hw E0 E1. apply (matchAll_ok ord es hb gh (hits es hb)); try done. intros h vs _.
  unfold scanMsg. destruct (Nat.leb_spec 8 hb); [|lia]. rewrite (localMap_eq h es Hk).
  pose proof (scanLarge_ok _ hb Hhb (keys_filter h es Hk) vs []) as E. etransitivity; [exact E|]. do 2 f_equal. apply map_ext. intros v. apply filter_snd.
Qed.

Lemma match_single ord step hb T n es gh : (hb < 8)%nat -> keysDistinct es -> (forall h m, ord h m ≡ₚ m) ->
  (length (filter (fun e : entry => e.1 = 0%N) es) <= 1)%nat -> (length (filter (fun e : entry => e.1 = 1%N) es) <= 1)%nat -> (0 < step)%nat -> (0 < T)%nat -> N.of_nat n * N.of_nat T < 2 ^ 64 ->
  length (gh 0) = n -> length (gh 1) = n ->
  exists out, matchAll ord step hb T n es gh = Done out /\ out ≡ₚ concat (map (hits es hb 0) (gh 0)) ++ concat (map (hits es hb 1) (gh 1)).
Proof.
  intros Hhb Hk HO L0 L1 Hs HT Hw E0 E1. apply (matchAll_ok ord es hb gh (hits es hb)); try done. intros h vs Hh.
  unfold scanMsg. destruct (Nat.leb_spec 8 hb); [lia|]. rewrite (localMap_eq h es Hk).
  assert (length (filter (fun e : entry => e.1 = h) es) <= 1)%nat as L by (destruct Hh; subst; done). clear L0 L1.
  assert (ord h (map snd (filter (fun e : entry => e.1 = h) es)) = map snd (filter (fun e : entry => e.1 = h) es)) as ->.
  { pose proof (HO h (map snd (filter (fun e : entry => e.1 = h) es))) as HP. destruct (filter _ es) as [|e [|e' l]]; cbn in *; [by apply Permutation_nil|by apply Permutation_singleton_r in HP|lia]. }
  transitivity (Some (concat (map (matches (map snd (filter (fun e : entry => e.1 = h) es)) hb) vs))); [|do 2 f_equal; apply map_ext; intros v; apply filter_snd].
  destruct (filter _ es) as [|e [|e' l]]; cbn [map]; [|apply (scanSmall_one e.2 hb vs [])|cbn in L; lia].
  rewrite scanSmall_nil. f_equal. clear. induction vs; [done|]. cbn. done.
Qed.

(** The whole run. *)
Lemma NoDup_map_on {A B} (f : A -> B) l : (forall x y, x ∈ l -> y ∈ l -> f x = f y -> x = y) -> NoDup l -> NoDup (map f l).
Proof.
  intros Hf Hnd. induction Hnd as [|x l Hx Hnd IH]; [constructor|]. cbn [map]. apply NoDup_cons. split.
  - intros Hin. apply elem_of_list_fmap in Hin as (y & E & Hy). apply Hf in E; [|left|by right]. by subst.
  - apply IH. intros y z Hy Hz. apply Hf; by right.
Qed.
Lemma mapM_omap {A B} (f : A -> option B) l : (forall x, x ∈ l -> is_Some (f x)) -> mapM f l = Some (omap f l).
Proof.
  induction l as [|x l IH]; intros H; [done|]. cbn. destruct (H x) as [y E]; [left|]. rewrite E. cbn. rewrite IH; [done|]. intros z Hz. apply H. by right.
Qed.

Lemma point_inj h x y : point h x = point h y -> x = y.
Proof.
  unfold point. destruct (h =? 0); [done|]. intros E. rewrite <- (N.lxor_0_r x), <- (N.lxor_0_r y), <- (N.lxor_nilpotent 1), <- !N.lxor_assoc, E. done.
Qed.

Lemma blkOf_point items it x : items !! it.2 = Some x -> blkOf items it = Some (point it.1 x).
Proof. unfold blkOf, point. by intros ->. Qed.

Lemma point_lt h x : x < 2 ^ 128 -> point h x < 2 ^ 128.
Proof.
  intros Hx. unfold point. destruct (h =? 0); [done|]. apply lt_pow_bits. intros k Hk. rewrite N.lxor_spec. rewrite (N.bits_above_log2 1) by (change (N.log2 1) with 0; lia).
  destruct (N.eq_dec x 0) as [-> |Hne]; [by rewrite N.bits_0|]. rewrite N.bits_above_log2; [done|]. apply N.log2_lt_pow2 in Hx; lia.
Qed.
Section run.
Variables (P : prty) (F : nat) (R : list N) (bins : list (list bitem)).
Hypotheses (HF : (384 <= F <= 512)%nat) (HI : interpolates P F) (HR : NoDup R) (HN : noNeighbours R) (HP : allPlaced (length R) bins) (HM : masksDistinct P F R)
  (HH : forall it, it ∈ concat bins -> it.1 < 2) (HB : Forall (fun x => x < 2 ^ 128) R).

Lemma placed_item it : it ∈ concat bins -> exists x, R !! it.2 = Some x.
Proof using HP. clear - HP. intros H. apply lookup_lt_is_Some_2. assert (it.2 ∈ seq 0 (length R)) as Hs%elem_of_seq; [|lia]. rewrite <- HP. by apply (elem_of_list_fmap_1 snd). Qed.

Lemma placed_inj it it' : it ∈ concat bins -> it' ∈ concat bins -> it.2 = it'.2 -> it = it'.
Proof using HP.
  clear - HP. intros H H' E. assert (NoDup (map snd (concat bins))) as Hnd by (rewrite HP; apply NoDup_seq).
  apply elem_of_list_lookup in H as [i Hi]. apply elem_of_list_lookup in H' as [j Hj].
  assert (i = j) as <-; [|congruence]. apply (NoDup_lookup _ i j it.2 Hnd); [by rewrite list_lookup_fmap, Hi|rewrite list_lookup_fmap, Hj; cbn; by rewrite E].
Qed.

Definition entryOf (it : bitem) : entry := (it.1, (recvMask P F (point it.1 (nth it.2 R 0)), it.2)).

Lemma entries_ok : localEntries P F R bins = Some (map entryOf (concat bins)).
Proof using HP.
  unfold localEntries. rewrite (mapM_map _ (map entryOf)).
  - by rewrite concat_map.
  - intros b Hb. unfold binEntries. apply mapM_map. intros it Hit. destruct (placed_item it) as [x Hx]; [apply elem_of_concat; by exists b|].
    rewrite (blkOf_point _ _ _ Hx). unfold entryOf. by rewrite (nth_lookup_Some _ _ 0 _ Hx).
Qed.

Lemma entries_keys : keysDistinct (map entryOf (concat bins)).
Proof using HP HM HR HH.
  unfold keysDistinct. rewrite map_map. assert (NoDup (concat bins)) as Hnd.
  { apply (NoDup_fmap_1 snd). change (NoDup (map snd (concat bins))). rewrite HP. apply NoDup_seq. }
  apply NoDup_map_on; [|done]. intros it it' Hit Hit' E. unfold entryOf in E. cbn [fst snd] in E. injection E as E1 E2.
  apply placed_inj; [done|done|]. destruct (placed_item it Hit) as [x Hx], (placed_item it' Hit') as [x' Hx'].
  rewrite (nth_lookup_Some _ _ 0 _ Hx), (nth_lookup_Some _ _ 0 _ Hx') in E2. apply HM in E2; [|by apply HH|by apply HH|by eapply elem_of_list_lookup_2|by eapply elem_of_list_lookup_2].
  subst x'. by apply (NoDup_lookup R it.2 it'.2 x).
Qed.

Lemma blks_in bin it x : bin ∈ bins -> it ∈ bin -> R !! it.2 = Some x -> point it.1 x ∈ binBlks R bin.
Proof using. clear. intros Hb Hit Hx. unfold binBlks. apply elem_of_list_omap. exists it. split; [done|]. by apply blkOf_point. Qed.

Lemma blks_nodup : forallb (fun bin => bool_decide (NoDup (binBlks R bin))) bins = true.
Proof using HR HN HP.
  apply forallb_forall. intros bin Hb. apply elem_of_list_In in Hb. apply bool_decide_eq_true_2. unfold binBlks.
  assert (forall it, it ∈ bin -> it ∈ concat bins) as Hin by (intros it Hit; apply elem_of_concat; by exists bin).
  assert (NoDup bin) as Hnd.
  { assert (NoDup (concat bins)) as Hc by (apply (NoDup_fmap_1 snd); change (NoDup (map snd (concat bins))); rewrite HP; apply NoDup_seq).
    clear - Hc Hb. induction bins as [|b l IH]; [by apply elem_of_nil in Hb|]. cbn in Hc. apply NoDup_app in Hc as (H1 & _ & H2).
    apply elem_of_cons in Hb as [-> |Hb]; [done|by apply IH]. }
  assert (omap (blkOf R) bin = map (fun it => point it.1 (nth it.2 R 0)) bin) as ->.
  { clear Hnd Hb. induction bin as [|it bin IH]; [done|]. destruct (placed_item it) as [x Hx]; [apply Hin; left|]. cbn. rewrite (blkOf_point _ _ _ Hx), (nth_lookup_Some _ _ 0 _ Hx).
    f_equal. apply IH. intros it' Hit'. apply Hin. by right. }
  apply NoDup_map_on; [|done]. intros it it' Hit Hit' E. apply placed_inj; [by apply Hin|by apply Hin|].
  destruct (placed_item it (Hin _ Hit)) as [x Hx], (placed_item it' (Hin _ Hit')) as [x' Hx'].
  rewrite (nth_lookup_Some _ _ 0 _ Hx), (nth_lookup_Some _ _ 0 _ Hx') in E.
  assert (x = x') as <-; [|by apply (NoDup_lookup R it.2 it'.2 x)].
  apply elem_of_list_lookup_2 in Hx, Hx'.
  unfold point in E. destruct (N.eqb_spec it.1 0), (N.eqb_spec it'.1 0); [done| | |].
  - exfalso. apply (HN x' Hx'). by rewrite <- E.
  - exfalso. apply (HN x Hx). by rewrite E.
  - apply (point_inj 1). exact E.
Qed.

Lemma send_mask b bin it x : bins !! b = Some bin -> it ∈ bin -> R !! it.2 = Some x ->
  sendMask P F (interp P (binPoints P F (binBlks R (nth b bins []))) (point it.1 x)) (point it.1 x) = recvMask P F (point it.1 x).
Proof using HF HI HR HN HP HB.
  intros Hb Hit Hx. rewrite (nth_lookup_Some _ _ [] _ Hb). apply bin_mask; [done|done| | |].
  - apply Forall_forall. intros y Hy. unfold binBlks in Hy. apply elem_of_list_omap in Hy as (it' & _ & Hy). destruct (R !! it'.2) as [z|] eqn:Ez; [|unfold blkOf in Hy; by rewrite Ez in Hy].
    rewrite (blkOf_point _ _ _ Ez) in Hy. injection Hy as <-. apply point_lt. rewrite Forall_forall in HB. apply HB. by eapply elem_of_list_lookup_2.
  - pose proof blks_nodup as H. rewrite forallb_forall in H. specialize (H bin). rewrite bool_decide_eq_true in H. apply H. apply elem_of_list_In. by eapply elem_of_list_lookup_2.
  - apply (blks_in bin it x); [by eapply elem_of_list_lookup_2|done|done].
Qed.
End run.

Lemma hashBytes_large n1 n2 : 2 ^ 17 <= n1 * n2 < 2 ^ 64 -> exists hb, hashBytes n1 n2 = Some hb /\ (8 <= hb)%nat.
Proof.
  intros H. unfold hashBytes. rewrite N.mod_small by (unfold two64; lia). destruct (N.eqb_spec (n1 * n2) 0); [lia|]. eexists. split; [reflexivity|].
  assert (17 <= N.log2 (n1 * n2)) by (change 17 with (N.log2 (2 ^ 17)); apply N.log2_le_mono; lia). lia.
Qed.

Lemma sendHashes_eq P F enc R bins S h : h < 2 ->
  sendHashes P F enc (binCount (N.of_nat (length R)) 40 1) (fun b => nth b (map (fun bin => interp P (binPoints P F (binBlks R bin))) bins) (interp P [])) S h = map (senderMask P F enc R bins h) S.
Proof.
  intros Hh. unfold sendHashes. apply map_ext. intros y. rewrite binsOf_eq. unfold senderMask, point.
  assert (forall b, nth b (map (fun bin => interp P (binPoints P F (binBlks R bin))) bins) (interp P []) = interp P (binPoints P F (binBlks R (nth b bins [])))) as Hb
    by (intros b; apply (map_nth (fun bin => interp P (binPoints P F (binBlks R bin))) bins [])).
  rewrite !Hb.
  destruct (N.eqb_spec h 0) as [-> |Hne]; [done|]. replace h with 1 by lia. done.
Qed.

Lemma hits_in es hb h v i : i ∈ hits es hb h v <-> exists m, (h, (m, i)) ∈ es /\ m mod 2 ^ (8 * N.of_nat hb) = v mod 2 ^ (8 * N.of_nat hb).
Proof.
  unfold hits. rewrite elem_of_list_fmap. split.
  - intros ([h' [m i']] & -> & H). apply elem_of_list_filter in H as [[<- E] H]. by exists m.
  - intros (m & H & E). exists (h, (m, i)). split; [done|]. by apply elem_of_list_filter.
Qed.

(** The run with any allocation that places every item. *)
Lemma run_placed P ordB enc rs lo ord T R S bins :
  let F := fieldSizeOf (N.of_nat (length R)) in
  balanced ordB enc 40 1 R rs = Done bins -> allPlaced (length R) bins -> (forall it, it ∈ concat bins -> it.1 < 2) ->
  NoDup R -> noNeighbours R -> masksDistinct P F R -> (forall es, lo es ≡ₚ es) ->
  (0 < T)%nat -> N.of_nat (length S) * N.of_nat T < 2 ^ 64 -> 2 ^ 17 <= N.of_nat (length S) * N.of_nat (length R) < 2 ^ 64 ->
  exists hb out, hashBytes (N.of_nat (length S)) (N.of_nat (length R)) = Some hb /\ (8 <= hb)%nat /\ prtyRun P ordB enc rs lo ord T R S = Done out /\
    forall i, i ∈ out <-> exists h y, h < 2 /\ y ∈ S /\ exists it, it ∈ concat bins /\ it.1 = h /\ it.2 = i /\
      recvMask P F (point h (nth i R 0)) mod 2 ^ (8 * N.of_nat hb) = senderMask P F enc R bins h y mod 2 ^ (8 * N.of_nat hb).
Proof.
  intros F Eb HP HH HR HN HM Hlo HT Hw Hn. destruct (hashBytes_large _ _ Hn) as (hb & Ehb & Hhb).
  exists hb. unfold prtyRun. fold F. rewrite numBinsOf_eq, Eb by done. rewrite (blks_nodup R bins HR HN HP). rewrite (entries_ok P F R bins HP), Ehb.
  cbv zeta. set (gh := fun h : N => if h =? 0 then _ else _).
  assert (forall h, h < 2 -> gh h = map (senderMask P F enc R bins h) S) as Hgh.
  { intros h Hh. unfold gh. destruct (N.eqb_spec h 0) as [-> |Hne]; [by apply sendHashes_eq|]. replace h with 1 by lia. by apply sendHashes_eq. }
  destruct (match_large ord (N.to_nat (2 ^ 14)) hb T (length S) (lo (map (entryOf P F R) (concat bins))) gh) as (out & Eo & Ho).
  - done.
  - unfold keysDistinct. rewrite Hlo. by apply (entries_keys P F R bins HR HP HM HH).
  - lia.
  - done.
  - done.
  - rewrite Hgh by done. apply map_length.
  - rewrite Hgh by done. apply map_length.
  - exists out. split; [done|]. split; [done|]. split; [exact Eo|].
    assert (forall h i, h < 2 -> i ∈ concat (map (hits (lo (map (entryOf P F R) (concat bins))) hb h) (gh h)) <-> exists y, y ∈ S /\ exists it, it ∈ concat bins /\ it.1 = h /\ it.2 = i /\
        recvMask P F (point h (nth i R 0)) mod 2 ^ (8 * N.of_nat hb) = senderMask P F enc R bins h y mod 2 ^ (8 * N.of_nat hb)) as Hh.
      { intros h i Hh. rewrite Hgh by done. rewrite map_map, elem_of_concat. split.
        - intros (l & Hi & Hl). apply elem_of_list_fmap in Hl as (y & -> & Hy). exists y. split; [done|]. apply hits_in in Hi as (m & Hm & E).
          rewrite Hlo in Hm. apply elem_of_list_fmap in Hm as (it & Eit & Hit). unfold entryOf in Eit. injection Eit as E1 -> E2. exists it. subst. done.
        - intros (y & Hy & it & Hit & E1 & E2 & E). eexists. split; [|apply (elem_of_list_fmap_1 (fun y => hits _ hb h (senderMask P F enc R bins h y))); exact Hy].
          apply hits_in. exists (recvMask P F (point h (nth i R 0))). split; [|done]. rewrite Hlo. apply elem_of_list_fmap. exists it. split; [|done]. unfold entryOf. by rewrite E1, E2. }
    intros i. rewrite Ho, elem_of_app. rewrite (Hh 0 i), (Hh 1 i) by done. split.
    + intros [(y & Hy & H)|(y & Hy & H)]; [exists 0, y|exists 1, y]; done.
    + intros (h & y & Hlt & Hy & H). assert (h = 0 \/ h = 1) as [-> | ->] by lia; [left|right]; by exists y.
Qed.

Lemma run_all_placed ordB enc R rs bins : anyOrder ordB -> balanced ordB enc 40 1 R rs = Done bins -> allPlaced (length R) bins.
Proof.
  intros HO Eb. destruct (balanced_ok ordB enc 40 1 R rs HO) as [Q|(bins' & Q & _ & _ & HP & _)]; [done|done|by rewrite Q in Eb|]. rewrite Eb in Q. by injection Q as <-.
Qed.
Lemma run_light P ordB enc rs lo ord T R S :
  let F := fieldSizeOf (N.of_nat (length R)) in
  anyOrder ordB -> lightLoads enc R -> Forall (fun x => x < 2 ^ 128) R -> NoDup R -> noNeighbours R -> interpolates P F -> masksDistinct P F R -> (forall es, lo es ≡ₚ es) ->
  (0 < T)%nat -> N.of_nat (length S) * N.of_nat T < 2 ^ 64 -> 2 ^ 17 <= N.of_nat (length S) * N.of_nat (length R) < 2 ^ 64 ->
  exists bins hb out, balanced ordB enc 40 1 R rs = Done bins /\ hashBytes (N.of_nat (length S)) (N.of_nat (length R)) = Some hb /\
    prtyRun P ordB enc rs lo ord T R S = Done out /\
    (forall i x, R !! i = Some x -> x ∈ S -> i ∈ out) /\
    (noFalseMatch P F enc R bins S hb -> forall i, i ∈ out -> exists x, R !! i = Some x /\ x ∈ S).
Proof.
  intros F HO HL HB HR HN HI HM Hlo HT Hw Hn.
  destruct (balanced_light ordB enc 40 1 R rs HO) as (bins & Eb & Hbins); [done|done|done|].
  destruct (balanced_ok ordB enc 40 1 R rs HO) as [Q|(bins' & Q & _ & _ & HP & _)]; [done|done|by rewrite Q in Eb|]. rewrite Eb in Q. injection Q as <-.
  assert (forall it, it ∈ concat bins -> exists b bin, bins !! b = Some bin /\ it ∈ bin) as Hcb.
  { intros it Hit. apply elem_of_concat in Hit as (bin & Hit & Hb). apply elem_of_list_lookup in Hb as [b Hb]. by exists b, bin. }
  assert (forall it, it ∈ concat bins -> it.1 < 2) as HH.
  { intros it (b & bin & Hb & Hit)%Hcb. by destruct (Hbins b bin it Hb Hit) as (x & _ & ? & _). }
  pose proof (fieldSize_range (N.of_nat (length R))) as HF. fold F in HF.
  destruct (run_placed P ordB enc rs lo ord T R S bins) as (hb & out & Ehb & Hhb & Eo & Hin); [done..|].
  exists bins, hb, out. split; [done|]. split; [done|]. split; [exact Eo|]. split.
  - intros i x Hx HxS. apply Hin. assert (i ∈ map snd (concat bins)) as Hi. { rewrite HP. apply elem_of_seq. apply lookup_lt_Some in Hx. lia. }
      apply elem_of_list_fmap in Hi as (it & -> & Hit). destruct (Hcb it Hit) as (b & bin & Hb & Hitb). destruct (Hbins b bin it Hb Hitb) as (x' & Hx' & Hlt & Eb').
      rewrite Hx in Hx'. injection Hx' as <-. exists it.1, x. split; [done|]. split; [done|]. exists it. split; [done|]. split; [done|]. split; [done|].
      f_equal. rewrite (nth_lookup_Some _ _ 0 _ Hx). unfold senderMask. rewrite <- Eb', Nat2N.id. symmetry. by apply (send_mask P F R bins HF HI HR HN HP HB b bin).
  - intros HNF i (h & y & Hh & Hy & it & Hit & E1 & E2 & E)%Hin. destruct (placed_item R bins HP it Hit) as [x Hx]. rewrite E2 in Hx. exists x. split; [done|].
      rewrite (nth_lookup_Some _ _ 0 _ Hx) in E. assert (x = y) as -> by (apply (HNF h x y); [done|by eapply elem_of_list_lookup_2|done|done]). done.
Qed.

(** The quadratic comparison with two masks of the same hash number reads beyond the message. *)
Lemma scanMsg_over ord m hb vs : (forall m, ord m ≡ₚ m) -> (hb < 8)%nat -> (0 < hb)%nat -> (2 <= length m)%nat -> vs <> [] -> scanMsg ord m hb (length vs) (buffer hb vs) = None.
Proof.
  intros HO Hhb Hpos Hm Hvs. unfold scanMsg. destruct (Nat.leb_spec 8 hb); [lia|]. assert (0 < length vs)%nat by (destruct vs; [done|cbn; lia]).
  apply scanSmall_over; [done|rewrite (Permutation_length (HO m)); lia|]. rewrite buffer_length, (Permutation_length (HO m)). nia.
Qed.

Lemma match_over ord step hb T n es gh h : (hb < 8)%nat -> (0 < hb)%nat -> keysDistinct es -> (forall h m, ord h m ≡ₚ m) -> h < 2 ->
  (2 <= length (filter (fun e : entry => e.1 = h) es))%nat -> (0 < step)%nat -> (0 < T)%nat -> (0 < n)%nat -> N.of_nat n * N.of_nat T < 2 ^ 64 ->
  length (gh 0) = n -> matchAll ord step hb T n es gh = UB.
Proof.
  intros Hhb Hpos Hk HO Hh Hm Hs HT Hn Hw E0. unfold matchAll, sendThread. rewrite E0.
  assert (exists t, (t < T)%nat /\ idxRange n T t <> []) as (t & Ht & Hne).
  { assert (0%nat ∈ concat (map (idxRange n T) (seq 0 T))) as Hin by (rewrite idxRange_concat by done; apply elem_of_seq; lia).
    apply elem_of_concat in Hin as (l & Hin & Hl). apply elem_of_list_fmap in Hl as (t & -> & Ht%elem_of_seq). exists t. split; [lia|]. intros E. rewrite E in Hin. by apply elem_of_nil in Hin. }
  destruct (mapM _ (seq 0 T)) as [l|] eqn:E; [exfalso|done]. apply mapM_Some in E. apply Forall2_lookup_l with (i := t) (x := t) in E; [|by rewrite lookup_seq_lt].
  destruct E as (o & _ & E). unfold stepsOf in E. destruct (idxRange n T t) as [|i l'] eqn:Er; [done|].
  cbn [length chunks map concat app recvSteps] in E. set (ids := take step (i :: l')) in *.
  assert (ids <> []) as Hids by (unfold ids; destruct step; [lia|done]).
  assert (scanMsg (ord h) (localMap h es) hb (length ids) (concat (map (fun i => bytesLE hb (nth i (gh h) 0)) ids)) = None) as EN.
  { pose proof (scanMsg_over (ord h) (localMap h es) hb (map (fun i => nth i (gh h) 0) ids)) as H. rewrite map_length in H. unfold buffer in H. rewrite map_map in H. apply H; [done|done|done| |].
    - rewrite (localMap_eq h es Hk), map_length. done.
    - intros E'. by apply map_eq_nil in E'. }
  assert (h = 0 \/ h = 1) as [-> | ->] by lia; rewrite EN in E; [done|]. by destruct (scanMsg (ord 0) _ _ _ _).
Qed.

(** Packing of the coefficients. *)
Lemma pack_full d cs : Forall (fun c => length c = d) cs -> packStep d cs = Some (concat cs) /\ unpackStep d (length cs) (concat cs) = cs.
Proof.
  intros HF. assert (length (concat cs) = length cs * d)%nat as Hl.
  { induction HF as [|c cs Hc HF IH]; [done|]. cbn. rewrite app_length, IH. lia. }
  split.
  - unfold packStep. rewrite Hl, Nat.leb_refl, Nat.sub_diag. cbn. by rewrite app_nil_r.
  - unfold unpackStep. clear Hl. induction HF as [|c cs Hc HF IH]; [done|]. cbn [length seq map concat]. f_equal.
    + cbn. by rewrite drop_0, take_app_alt.
    + rewrite <- seq_shift, map_map. rewrite <- IH at 2. apply map_ext. intros i. f_equal. cbn [Nat.mul]. rewrite drop_app_ge by lia. f_equal. lia.
Qed.

Lemma points_nodup ordB enc rs R bins bin : anyOrder ordB -> NoDup R -> noNeighbours R -> balanced ordB enc 40 1 R rs = Done bins -> bin ∈ bins -> NoDup (binBlks R bin).
Proof.
  intros HO HR HN E Hb. destruct (balanced_ok ordB enc 40 1 R rs HO) as [Q|(bins' & Q & _ & _ & HP & _)]; [done|done|by rewrite Q in E|]. rewrite E in Q. injection Q as <-.
  pose proof (blks_nodup R bins HR HN HP) as H. rewrite forallb_forall in H. specialize (H bin). rewrite bool_decide_eq_true in H. apply H. by apply elem_of_list_In.
Qed.
