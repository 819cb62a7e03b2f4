(** Proofs about the masks as differences. *)
From Verif Require Import Base Partition_Model Ecdh_Model File_Model File_Spec File_Proofs Balanced_Model Prty_Model Prty_Proofs PrtyDiff_Model PrtyDiff_Spec.
Local Open Scope nat_scope.

(** * Blocks *)
Section lanes.
Local Open Scope N_scope.
Local Notation W := two64.
Lemma W_pos : 0 < W.
Proof. done. Qed.
Lemma low_lanes h x : (8 < h)%nat -> low h x = x mod W + W * ((x / W) mod 2 ^ (8 * N.of_nat h - 64)).
Proof.
  intros Hh. unfold low. replace (8 * N.of_nat h) with (64 + (8 * N.of_nat h - 64)) at 1 by lia. rewrite N.pow_add_r. change (2 ^ 64) with W. apply N.mod_mul_r; [done|].
  apply N.pow_nonzero. done.
Qed.
Lemma lanes_lo lo hi : lo < W -> lanes lo hi mod W = lo.
Proof. intros H. unfold lanes. rewrite N.mul_comm, N.mod_add by done. by apply N.mod_small. Qed.
Lemma lanes_hi lo hi : lo < W -> lanes lo hi / W = hi.
Proof. intros H. unfold lanes. rewrite N.mul_comm, N.div_add by done. rewrite N.div_small by done. lia. Qed.
Lemma pow_divides h : (h <= 8)%nat -> exists c, W = 2 ^ (8 * N.of_nat h) * c /\ c <> 0.
Proof. intros Hh. exists (2 ^ (64 - 8 * N.of_nat h)). split; [|by apply N.pow_nonzero]. rewrite <- N.pow_add_r. change W with (2 ^ 64). f_equal. lia. Qed.
Lemma low_mod h x : (h <= 8)%nat -> low h (x mod W) = low h x.
Proof. intros Hh. destruct (pow_divides h Hh) as (c & -> & Hc). unfold low. rewrite N.mod_mul_r by (try done; by apply N.pow_nonzero). rewrite (N.mul_comm (2 ^ _)), N.mod_add by (by apply N.pow_nonzero). apply N.mod_mod. by apply N.pow_nonzero. Qed.
Lemma mod_mod_lane a k : k <= 64 -> (a mod W) mod 2 ^ k = a mod 2 ^ k.
Proof.
  intros Hk. assert (W = 2 ^ k * 2 ^ (64 - k)) as -> by (rewrite <- N.pow_add_r; change W with (2 ^ 64); f_equal; lia). rewrite N.mod_mul_r by by apply N.pow_nonzero.
  rewrite (N.mul_comm (2 ^ k)), N.mod_add by by apply N.pow_nonzero. apply N.mod_mod. by apply N.pow_nonzero.
Qed.
Lemma lanes_inj a b c e : a < W -> b < W -> a + W * c = b + W * e -> a = b /\ c = e.
Proof. intros Ha Hb E. assert (c = e) as ->; [|split; [|done]; by apply N.add_cancel_r in E]. rewrite <- (lanes_hi a c Ha), <- (lanes_hi b e Hb). unfold lanes. by rewrite E. Qed.
Lemma low_add h d d' m m' : (h <= 16)%nat -> low h d = low h d' -> low h m = low h m' -> low h (addBlk d m) = low h (addBlk d' m').
Proof.
  intros Hh Hd Hm. assert (forall x y, (x mod W + y mod W) mod W < W) as Hlt by (intros; by apply N.mod_lt). destruct (decide (h <= 8)%nat) as [Hs|Hs].
  - assert (forall x y, low h (addBlk x y) = (low h x + low h y) mod 2 ^ (8 * N.of_nat h)) as E; [|by rewrite !E, Hd, Hm].
    intros x y. rewrite <- (low_mod h (addBlk x y)) by done. unfold addBlk. rewrite lanes_lo by done. rewrite low_mod by done. unfold low. rewrite N.add_mod by by apply N.pow_nonzero.
    rewrite !(mod_mod_lane _ (8 * N.of_nat h)) by lia. done.
  - rewrite !low_lanes in Hd, Hm |- * by lia. assert (8 * N.of_nat h - 64 <= 64) as Hk by (clear -Hh; lia). generalize dependent (8 * N.of_nat h - 64). intros k Hd Hm Hk.
    apply lanes_inj in Hd as [Hd1 Hd2]; [|by apply N.mod_lt..]. apply lanes_inj in Hm as [Hm1 Hm2]; [|by apply N.mod_lt..].
    unfold addBlk. rewrite !lanes_lo, !lanes_hi by done. rewrite Hd1, Hm1. f_equal. f_equal. rewrite !mod_mod_lane by done.
    rewrite (N.add_mod (d / W)), (N.add_mod (d' / W)) by by apply N.pow_nonzero. by rewrite Hd2, Hm2.
Qed.
Lemma blk_eta x : lanes (x mod W) (x / W) = x.
Proof. unfold lanes. rewrite N.add_comm. symmetry. by apply N.div_mod. Qed.
Lemma hi_small x : x < 2 ^ 128 -> x / W < W.
Proof. intros H. apply N.div_lt_upper_bound; [done|]. exact H. Qed.
Lemma add_sub a b : a < 2 ^ 128 -> b < 2 ^ 128 -> addBlk (subBlk a b) b = a.
Proof.
  intros Ha Hb. pose proof (hi_small a Ha). pose proof (hi_small b Hb). assert (forall x y, x < W -> y < W -> ((x + W - y) mod W + y) mod W = x) as E.
  { intros x y Hx Hy. rewrite N.add_mod_idemp_l by done. replace (x + W - y + y) with (x + 1 * W) by lia. rewrite N.mod_add by done. by apply N.mod_small. }
  unfold addBlk. unfold subBlk at 1 2. rewrite lanes_lo, lanes_hi by by apply N.mod_lt. rewrite !E by (try done; by apply N.mod_lt). apply blk_eta.
Qed.
Lemma add_zero b : b < 2 ^ 128 -> addBlk 0 b = b.
Proof.
  intros Hb. pose proof (hi_small b Hb). unfold addBlk. change (0 mod W) with 0. change (0 / W) with 0. rewrite !N.add_0_l. rewrite (N.mod_small (b mod W)) by by apply N.mod_lt.
  rewrite (N.mod_small (b / W)) by done. apply blk_eta.
Qed.
Lemma sub_low_zero h a b : (h <= 16)%nat -> a < 2 ^ 128 -> b < 2 ^ 128 -> low h (subBlk a b) = 0 -> low h a = low h b.
Proof.
  intros Hh Ha Hb E. rewrite <- (add_sub a b Ha Hb) at 1. rewrite <- (add_zero b Hb) at 3. apply low_add; [done| |done]. rewrite E. unfold low. rewrite N.mod_0_l; [done|]. by apply N.pow_nonzero.
Qed.
Lemma low_low k h x : (h <= k)%nat -> low h (low k x) = low h x.
Proof.
  intros H. unfold low. replace (8 * N.of_nat k) with (8 * N.of_nat h + (8 * N.of_nat k - 8 * N.of_nat h)) by lia. rewrite N.pow_add_r. rewrite N.mod_mul_r by by apply N.pow_nonzero.
  rewrite (N.mul_comm (2 ^ (8 * N.of_nat h))), N.mod_add by by apply N.pow_nonzero. apply N.mod_mod. by apply N.pow_nonzero.
Qed.
Lemma low_overlay b x old : x < 2 ^ (8 * N.of_nat b) -> low b (overlay b x old) = x.
Proof. intros H. unfold low, overlay. rewrite N.mul_comm, N.mod_add by by apply N.pow_nonzero. by apply N.mod_small. Qed.
End lanes.

(** * Bytes *)
Lemma leBytes_lt l : Forall (fun x => (x < 256)%N) l -> (leBytes l < 2 ^ (8 * N.of_nat (length l)))%N.
Proof. intros H. apply (bytesLE_leBytes l H). Qed.
Lemma low_leBytes l k : Forall (fun x => (x < 256)%N) l -> k <= length l -> low k (leBytes l) = leBytes (take k l).
Proof.
  intros H Hk. unfold low. rewrite <- leBytes_low. f_equal. rewrite <- (proj1 (bytesLE_leBytes l H)) at 2. by rewrite bytesLE_take.
Qed.
Lemma bytesLE_bytes n b : Forall (fun x => (x < 256)%N) (bytesLE n b).
Proof. unfold bytesLE. apply Forall_fmap. apply Forall_true. intros j. by apply N.mod_lt. Qed.
Lemma bytesLE_inj n a b : bytesLE n a = bytesLE n b <-> low n a = low n b.
Proof. unfold low. split; intros E; [by rewrite <- !leBytes_low, E|]. 
  rewrite <- !leBytes_low in E. pose proof (bytesLE_leBytes _ (bytesLE_bytes n a)) as [E1 _]. pose proof (bytesLE_leBytes _ (bytesLE_bytes n b)) as [E2 _]. rewrite bytesLE_length in E1, E2. congruence.
Qed.
Lemma ones_bytes n : bytesLE n (2 ^ (8 * N.of_nat n) - 1) = replicate n 255%N.
Proof.
  induction n as [|n IH]; [done|]. rewrite bytesLE_S. cbn [replicate]. set (P := (2 ^ (8 * N.of_nat n))%N) in *. assert (0 < P)%N by (apply N.neq_0_lt_0, N.pow_nonzero; done).
  assert (2 ^ (8 * N.of_nat (S n)) = 256 * P)%N as ->. { unfold P. replace (8 * N.of_nat (S n))%N with (8 + 8 * N.of_nat n)%N by lia. by rewrite N.pow_add_r. }
  replace (256 * P - 1)%N with (255 + (P - 1) * 256)%N by lia. rewrite N.mod_add, N.div_add by done. by rewrite <- IH.
Qed.
Lemma bytesLt_max l n : Forall (fun x => (x < 256)%N) l -> length l = n -> bytesLt l (replicate n 255%N) = negb (bool_decide (l = replicate n 255%N)).
Proof.
  intros H <-. induction H as [|x l Hx Hl IH]; [done|]. cbn [length replicate bytesLt]. destruct (N.ltb_spec x 255) as [Hlt|Hge].
  - rewrite bool_decide_eq_false_2; [done|]. intros E. injection E as ->. lia.
  - assert (x = 255%N) as -> by lia. rewrite N.eqb_refl, IH. f_equal. apply bool_decide_ext. split; intros E; [by rewrite <- E|by injection E].
Qed.
Lemma bound_ones h : h <= 16 -> boundDiff h = (2 ^ (8 * N.of_nat h) - 1)%N.
Proof.
  intros Hh. assert (forallb (fun h => boundDiff h =? 2 ^ (8 * N.of_nat h) - 1)%N (seq 0 17) = true) as H by (vm_compute; done). rewrite forallb_forall in H. apply N.eqb_eq, H, in_seq. lia.
Qed.
Lemma escape_ok h x : h <= 16 -> bytesLt (bytesLE h x) (bytesLE h (boundDiff h)) = negb (low h x =? 2 ^ (8 * N.of_nat h) - 1)%N.
Proof.
  intros Hh. rewrite bound_ones, ones_bytes by done. rewrite bytesLt_max; [|apply bytesLE_bytes|apply bytesLE_length]. f_equal.
  destruct (N.eqb_spec (low h x) (2 ^ (8 * N.of_nat h) - 1)) as [E|E].
  - apply bool_decide_eq_true_2. rewrite <- ones_bytes. apply bytesLE_inj. rewrite E. unfold low. symmetry. apply N.mod_small. assert (2 ^ (8 * N.of_nat h) <> 0)%N by by apply N.pow_nonzero. lia.
  - apply bool_decide_eq_false_2. rewrite <- ones_bytes. intros E'. apply bytesLE_inj in E'. apply E. rewrite E'. unfold low. apply N.mod_small. assert (2 ^ (8 * N.of_nat h) <> 0)%N by by apply N.pow_nonzero. lia.
Qed.

(** * The sender *)
Lemma poke_length buf i x buf' : poke buf i x = Some buf' -> length buf' = length buf.
Proof. unfold poke. destruct (Nat.leb_spec (i + length x) (length buf)); [|done]. intros E. injection E as <-. rewrite !app_length, take_length, drop_length. lia. Qed.
Lemma poke_app buf i x y : match poke buf i x with Some b' => poke b' (i + length x) y | None => None end = poke buf i (x ++ y).
Proof.
  unfold poke. rewrite app_length. destruct (Nat.leb_spec (i + length x) (length buf)) as [H|H].
  - assert (length (take i buf ++ x ++ drop (i + length x) buf) = length buf) as El by (rewrite !app_length, take_length, drop_length; lia). rewrite El.
    rewrite Nat.add_assoc. destruct (Nat.leb_spec (i + length x + length y) (length buf)) as [H'|H']; [|done]. f_equal.
    assert (length (take i buf) = i) as Ei by (rewrite take_length; lia).
    assert (take i buf ++ x ++ drop (i + length x) buf = (take i buf ++ x) ++ drop (i + length x) buf) as Ea by by rewrite app_assoc. rewrite Ea.
    assert (length (take i buf ++ x) = i + length x) as Eb by (rewrite app_length; lia). rewrite take_app_alt by done. rewrite drop_app_ge by lia.
    rewrite drop_drop, Eb. replace (i + length x + (i + length x + length y - (i + length x))) with (i + length x + length y) by lia. by rewrite <- !app_assoc.
  - replace (i + (length x + length y) <=? length buf) with false by (symmetry; apply Nat.leb_gt; lia). done.
Qed.
Lemma encLoop_ok h b prev ms buf iter : h <= 16 -> iter <= length buf -> encLoop h b prev ms buf iter = poke buf iter (tailBytes h b prev ms).
Proof.
  intros Hh. revert prev buf iter. induction ms as [|m ms IH]; intros prev buf iter Hi; cbn [encLoop tailBytes].
  - unfold poke. cbn [length]. replace (iter + 0) with iter by lia. replace (iter <=? length buf) with true by (symmetry; apply Nat.leb_le; lia). cbn [app]. by rewrite take_drop.
  - rewrite escape_ok by done. unfold escaped. destruct (low h (subBlk m prev) =? 2 ^ (8 * N.of_nat h) - 1)%N; cbn [negb].
    + rewrite <- app_assoc. rewrite <- (poke_app buf iter). rewrite replicate_length. destruct (poke buf iter (replicate h 0%N)) as [buf1|] eqn:E1; [|done].
      rewrite <- poke_app. rewrite bytesLE_length. destruct (poke buf1 (iter + h) (bytesLE b m)) as [buf2|] eqn:E2; [|done]. apply IH.
      rewrite (poke_length _ _ _ _ E2). unfold poke in E2. destruct (Nat.leb_spec (iter + h + length (bytesLE b m)) (length buf1)) as [H|H]; [|done]. rewrite bytesLE_length in H. lia.
    + rewrite <- poke_app. rewrite bytesLE_length. destruct (poke buf iter (bytesLE h (subBlk m prev))) as [buf1|] eqn:E1; [|done]. apply IH.
      rewrite (poke_length _ _ _ _ E1). unfold poke in E1. destruct (Nat.leb_spec (iter + length (bytesLE h (subBlk m prev))) (length buf)) as [H|H]; [|done]. rewrite bytesLE_length in H. lia.
Qed.
Lemma encode_ok h b size m ms : h <= 16 -> let s := streamBytes h b (m :: ms) in encode h b size (m :: ms) = if length s <=? size then Done (s ++ replicate (size - length s) 0%N) else UB.
Proof.
  intros Hh. cbn zeta. unfold encode, streamBytes. destruct (poke (replicate size 0%N) 0 (bytesLE b m)) as [buf|] eqn:E.
  - rewrite encLoop_ok; [|done|].
    + pose proof (poke_app (replicate size 0%N) 0 (bytesLE b m) (tailBytes h b m ms)) as Hp. rewrite E, bytesLE_length in Hp. cbn [Nat.add] in Hp. rewrite Hp. unfold poke. rewrite replicate_length. cbn [Nat.add].
      destruct (_ <=? size) eqn:El; [|done]. cbn [take app]. by rewrite drop_replicate.
    + rewrite (poke_length _ _ _ _ E), replicate_length. unfold poke in E. rewrite replicate_length, bytesLE_length in E. destruct (Nat.leb_spec (0 + b) size); [lia|done].
  - unfold poke in E. rewrite replicate_length, bytesLE_length in E. destruct (Nat.leb_spec (0 + b) size); [done|]. rewrite app_length, bytesLE_length.
    replace (b + length (tailBytes h b m ms) <=? size) with false by (symmetry; apply Nat.leb_gt; lia). done.
Qed.
Lemma tail_length h b prev ms : length (tailBytes h b prev ms) >= h * length ms.
Proof. revert prev. induction ms as [|m ms IH]; intros prev; cbn [tailBytes length]; [lia|]. rewrite app_length. specialize (IH m). destruct (escaped h prev m); rewrite ?app_length, ?replicate_length, ?bytesLE_length; lia. Qed.

(** * The receiver *)
Lemma strict_loop fuel h b buf mask diff over iter : 0 < h -> 0 < b -> length buf - iter < fuel -> iter < length buf -> decLoop fuel (length buf) h b (peek buf) mask diff over iter = UB.
Proof.
  intros Hh Hb. revert mask diff over iter. induction fuel as [|f IH]; intros mask diff over iter Hf Hi; [lia|]. cbn [decLoop].
  replace (iter <? length buf) with true by (symmetry; apply Nat.ltb_lt; lia).
  assert (forall o k, length buf <= o -> 0 < k -> peek buf o k = None) as Hp by (intros o k H1 H2; unfold peek; replace (o + k <=? length buf) with false by (symmetry; apply Nat.leb_gt; lia); done).
  destruct (low h diff =? 0)%N.
  - destruct (peek buf (iter + h) b) as [m'|]; [|done]. destruct (decide (length buf <= iter + h + b)) as [H|H]; [by rewrite Hp|]. destruct (peek buf (iter + h + b) b) as [d'|]; [|done]. rewrite IH by lia. done.
  - destruct (decide (length buf <= iter + h)) as [H|H]; [by rewrite Hp|]. destruct (peek buf (iter + h) h) as [d'|]; [|done]. rewrite IH by lia. done.
Qed.
Lemma strict_ub h b g1 g2 buf : 0 < h -> 0 < b -> decodeStrict h b g1 g2 buf = UB.
Proof.
  intros Hh Hb. unfold decodeStrict, decode. destruct (peek buf 0 b); [|done]. destruct (peek buf b b) eqn:E; [|done]. apply strict_loop; [done|done|lia|].
  unfold peek in E. destruct (Nat.leb_spec (b + b) (length buf)); [lia|done].
Qed.

Section mem.
Context (mem : nat -> N) (h b size : nat) (Hmem : forall i, (mem i < 256)%N) (Hh : 0 < h) (Hh16 : h <= 16) (Hhb : h <= b).
Local Notation rd := (peekMem mem).
Definition memNum (off k : nat) : N := leBytes (map mem (seq off k)).
Lemma mem_bytes off k : Forall (fun x => (x < 256)%N) (map mem (seq off k)).
Proof using Hmem. clear -Hmem. apply Forall_fmap. apply Forall_true. intros i. apply Hmem. Qed.
Lemma mem_lt off k : (memNum off k < 2 ^ (8 * N.of_nat k))%N.
Proof using Hmem. pose proof (leBytes_lt _ (mem_bytes off k)) as H. rewrite map_length, seq_length in H. exact H. Qed.
Lemma mem_low off k j : j <= k -> low j (memNum off k) = memNum off j.
Proof using Hmem.
  clear -Hmem. intros Hj. unfold memNum. rewrite low_leBytes; [|apply mem_bytes|by rewrite map_length, seq_length]. f_equal. rewrite firstn_map. f_equal.
  replace k with (j + (k - j)) by lia. rewrite seq_app. rewrite take_app_alt; [done|by rewrite seq_length].
Qed.
Lemma mem_at off l : (forall i x, l !! i = Some x -> mem (off + i) = x) -> map mem (seq off (length l)) = l.
Proof using.
  clear. revert off. induction l as [|x l IH]; intros off H; [done|]. cbn. f_equal; [specialize (H 0 x eq_refl); by rewrite Nat.add_0_r in H|]. apply IH. intros i y Hi. specialize (H (S i) y Hi). by rewrite Nat.add_succ_r in H.
Qed.
Lemma at_app off x y : (forall i v, (x ++ y) !! i = Some v -> mem (off + i) = v) -> (forall i v, x !! i = Some v -> mem (off + i) = v) /\ (forall i v, y !! i = Some v -> mem (off + length x + i) = v).
Proof using.
  clear. intros H. split; intros i v Hi.
  - apply H. by apply lookup_app_l_Some.
  - rewrite <- Nat.add_assoc. apply H. rewrite lookup_app_r by lia. by replace (length x + i - length x) with i by lia.
Qed.
Lemma num_bytes off k v : (forall i x, bytesLE k v !! i = Some x -> mem (off + i) = x) -> memNum off k = low k v.
Proof using. clear. intros H. unfold memNum. pose proof (mem_at off _ H) as E. rewrite bytesLE_length in E. rewrite E. unfold low. apply leBytes_low. Qed.
Lemma dec_total fuel mask diff over iter : size - iter < fuel -> exists vs, decLoop fuel size h b rd mask diff over iter = Done vs.
Proof using Hh.
  clear -Hh. revert mask diff over iter. induction fuel as [|f IH]; intros mask diff over iter Hf; [lia|]. cbn [decLoop]. destruct (Nat.ltb_spec iter size) as [Hi|Hi]; [|by eexists].
  unfold peekMem at 1 2 4. destruct (low h diff =? 0)%N.
  - destruct (IH (overlay b (leBytes (map mem (seq (iter + h) b))) mask) (overlay b (leBytes (map mem (seq (iter + h + b) b))) diff) true (iter + h + b)) as [vs ->]; [lia|]. by eexists.
  - destruct (IH (addBlk diff mask) (overlay h (leBytes (map mem (seq (iter + h) h))) diff) false (iter + h)) as [vs ->]; [lia|]. by eexists.
Qed.
(** Behind the masks the buffer holds zeros: what is looked up there is zero. *)
Lemma dec_pad fuel mask diff over iter vs : size - iter < fuel -> (forall i, iter <= i < size -> mem i = 0%N) -> low h diff = memNum iter h -> decLoop fuel size h b rd mask diff over iter = Done vs ->
  match vs with [] => size <= iter | v :: vs' => iter < size /\ v = (mask, if over then b else h) /\ Forall (fun v => v.2 = b /\ low b v.1 = 0%N) vs' end.
Proof using Hmem Hh Hhb.
  clear Hh16. revert mask diff over iter vs. induction fuel as [|f IH]; intros mask diff over iter vs Hf Hz Hd E; [lia|]. cbn [decLoop] in E. destruct (Nat.ltb_spec iter size) as [Hi|Hi]; [|injection E as <-; exact Hi].
  assert (forall o k, rd o k = Some (memNum o k)) as Hrd by done. rewrite !Hrd in E.
  assert (forall off k, iter <= off -> off + k <= size -> memNum off k = 0%N) as H0.
  { intros off k H1 H2. unfold memNum. assert (forall n o, iter <= o -> o + n <= size -> leBytes (map mem (seq o n)) = 0%N) as G; [|by apply G]. clear -Hz. induction n as [|n IHn]; intros o H1 H2; [done|].
    cbn [seq map leBytes]. rewrite (Hz o) by lia. rewrite IHn by lia. done. }
  destruct (N.eqb_spec (low h diff) 0) as [Ed|Ed].
  - destruct (decLoop f size h b rd (overlay b (memNum (iter + h) b) mask) (overlay b (memNum (iter + h + b) b) diff) true (iter + h + b)) as [ws| | |] eqn:El; [|discriminate E..]. injection E as <-. split; [done|]. split; [done|].
    apply IH in El; [|lia|intros i Hi'; apply Hz; lia|rewrite <- (low_low b h) by done; rewrite low_overlay by apply mem_lt; by apply mem_low]. destruct ws as [|w ws]; [constructor|]. destruct El as (Hlt & -> & Hws). constructor; [|done].
    cbn [fst snd]. split; [done|]. rewrite low_overlay by apply mem_lt. apply H0; lia.
  - assert (size < iter + h) as Hs. { destruct (Nat.lt_ge_cases size (iter + h)) as [H|H]; [done|]. exfalso. apply Ed. rewrite Hd. apply H0; lia. }
    destruct f as [|f]; [lia|]. cbn [decLoop] in E. replace (iter + h <? size) with false in E by (symmetry; apply Nat.ltb_ge; lia). injection E as <-. split; [done|]. split; [done|constructor].
Qed.
Lemma dec_tail fuel mask diff over iter prev ms : size - iter < fuel -> (forall i x, tailBytes h b prev ms !! i = Some x -> mem (iter + i) = x) -> iter + length (tailBytes h b prev ms) <= size ->
  (forall i, iter + length (tailBytes h b prev ms) <= i < size -> mem i = 0%N) -> low h mask = low h prev -> (over = true -> low b mask = low b prev) -> low h diff = memNum iter h -> Forall (fun m => (m < 2 ^ 128)%N) (prev :: ms) -> distinctLow h (prev :: ms) ->
  exists vs rest, decLoop fuel size h b rd mask diff over iter = Done (vs ++ rest) /\
    Forall2 (standsFor h) vs (take (length ms + (if iter + length (tailBytes h b prev ms) <? size then 1 else 0)) (prev :: ms)) /\ Forall (fun v => v.2 = b /\ low b v.1 = 0%N) rest.
Proof using Hmem Hh Hh16 Hhb.
  revert mask diff over iter prev fuel. induction ms as [|m ms IH]; intros mask diff over iter prev fuel Hf Hat Hsz Hzero Hmask Hover Hdiff Hbl Hdl.
  - cbn [tailBytes length] in *. rewrite !Nat.add_0_r in *. cbn [Nat.add]. destruct (Nat.ltb_spec iter size) as [Hi|Hi].
    + destruct (dec_total fuel mask diff over iter Hf) as [vs E]. rewrite E. pose proof (dec_pad fuel mask diff over iter vs Hf Hzero Hdiff E) as Hp. destruct vs as [|v vs]; [lia|]. destruct Hp as (_ & -> & Hz).
      exists [(mask, if over then b else h)], vs. split; [done|]. split; [|done]. cbn [take]. constructor; [|constructor]. split; cbn [fst snd]; destruct over; [by apply Hover|done|done|done].
    + exists []. cbn [take app]. destruct (dec_total fuel mask diff over iter Hf) as [vs E]. pose proof (dec_pad fuel mask diff over iter vs Hf Hzero Hdiff E) as Hp. destruct vs as [|v vs]; [|lia]. exists []. split; [done|split; constructor].
  - destruct fuel as [|f]; [lia|]. cbn [decLoop].
    apply Forall_cons in Hbl as [Hp Hbl]. pose proof Hbl as Hbl'. apply Forall_cons in Hbl' as [Hm _]. destruct Hdl as [Hne Hdl].
    assert (standsFor h (mask, if over then b else h) prev) as Hv by (split; cbn [fst snd]; destruct over; [by apply Hover|done|done|done]).
    cbn [tailBytes] in Hat, Hsz, Hzero |- *. rewrite app_length in Hsz, Hzero |- *. apply at_app in Hat as [Hat1 Hat2].
    replace (iter <? size) with true by (symmetry; apply Nat.ltb_lt; destruct (escaped h prev m); rewrite ?app_length, ?replicate_length, ?bytesLE_length in Hsz; lia).
    unfold peekMem at 1 2 4. fold (memNum (iter + h) b). fold (memNum (iter + h + b) b). fold (memNum (iter + h) h). destruct (escaped h prev m) eqn:Eesc.
    + apply at_app in Hat1 as [Ha Hb]. rewrite app_length, replicate_length, bytesLE_length in Hsz, Hzero, Hat2 |- *. rewrite replicate_length in Hb.
      assert (memNum iter h = 0%N) as Ez. { unfold memNum. pose proof (mem_at iter _ Ha) as E. rewrite replicate_length in E. rewrite E. clear. induction h as [|k IHk]; [done|]. cbn. rewrite IHk. done. }
      rewrite Hdiff, Ez. cbn [N.eqb]. 
      destruct (IH (overlay b (memNum (iter + h) b) mask) (overlay b (memNum (iter + h + b) b) diff) true (iter + h + b) m f) as (vs & rest & -> & Hvs & Hrest).
      * lia.
      * intros i x Hi. rewrite <- (Hat2 i x Hi). f_equal. lia.
      * lia.
      * intros i Hi. apply Hzero. lia.
      * rewrite <- (low_low b h) by done. rewrite low_overlay by apply mem_lt. rewrite (num_bytes _ _ _ Hb). by apply low_low.
      * intros _. rewrite low_overlay by apply mem_lt. by apply num_bytes.
      * rewrite <- (low_low b h) by done. rewrite low_overlay by apply mem_lt. by apply mem_low.
      * done.
      * done.
      * exists ((mask, if over then b else h) :: vs), rest. split; [done|]. split; [|exact Hrest]. cbn [length Nat.add take]. constructor; [done|].
        replace (iter + (h + b + length (tailBytes h b m ms))) with (iter + h + b + length (tailBytes h b m ms)) by lia. exact Hvs.
    + rewrite bytesLE_length in Hsz, Hzero, Hat2 |- *. pose proof (num_bytes _ _ _ Hat1) as En.
      destruct (N.eqb_spec (low h diff) 0) as [E0|E0]. { exfalso. apply Hne. symmetry. apply sub_low_zero; [done|done|done|]. by rewrite <- En, <- Hdiff. }
      destruct (IH (addBlk diff mask) (overlay h (memNum (iter + h) h) diff) false (iter + h) m f) as (vs & rest & -> & Hvs & Hrest).
      * lia.
      * exact Hat2.
      * lia.
      * intros i Hi. apply Hzero. lia.
      * rewrite <- (add_sub m prev) by done. apply low_add; [done| |done]. by rewrite Hdiff, En.
      * done.
      * rewrite low_overlay by apply mem_lt. done.
      * done.
      * done.
      * exists ((mask, if over then b else h) :: vs), rest. split; [done|]. split; [|exact Hrest]. cbn [length Nat.add take]. constructor; [done|].
        replace (iter + (h + length (tailBytes h b m ms))) with (iter + h + length (tailBytes h b m ms)) by lia. exact Hvs.
Qed.
End mem.

Lemma exchange_masks mem h b size ms buf g1 g2 : 0 < h -> h <= 16 -> h <= b -> Forall (fun m => (m < 2 ^ 128)%N) ms -> distinctLow h ms -> encode h b size ms = Done buf -> holdsBuf mem buf ->
  exists vs rest, decode (length buf) h b (peekMem mem) g1 g2 = Done (vs ++ rest) /\
    Forall2 (standsFor h) vs (take (length ms - 1 + (if length (streamBytes h b ms) <? size then 1 else 0)) ms) /\ Forall (fun v => v.2 = b /\ low b v.1 = 0%N) rest.
Proof.
  intros Hh H16 Hhb Hbl Hdl E [Hmem Hat]. destruct ms as [|m ms]; [done|]. rewrite encode_ok in E by done. set (s := streamBytes h b (m :: ms)) in *. destruct (Nat.leb_spec (length s) size) as [Hs|Hs]; [|done]. injection E as <-.
  assert (length (s ++ replicate (size - length s) 0%N) = size) as El by (rewrite app_length, replicate_length; lia). rewrite El.
  assert (forall i x, s !! i = Some x -> mem (0 + i) = x) as Hs' by (intros i x Hi; apply Hat; by apply lookup_app_l_Some).
  unfold s, streamBytes in Hs'. apply at_app in Hs' as [H1 H2]. rewrite bytesLE_length in H2. unfold decode, peekMem at 1 2.
  assert (length s = b + length (tailBytes h b m ms)) as Els by (unfold s, streamBytes; by rewrite app_length, bytesLE_length).
  pose proof (num_bytes mem 0 b m H1) as En. unfold memNum in En. rewrite En.
  assert (low b m < 2 ^ (8 * N.of_nat b))%N as Hlt by (unfold low; apply N.mod_lt; by apply N.pow_nonzero).
  destruct (dec_tail mem h b size Hmem Hh H16 Hhb (S size) (overlay b (low b m) g1) (overlay b (leBytes (map mem (seq b b))) g2) true b m ms) as (vs & rest & Ed & Hvs & Hrest).
  - lia.
  - intros i x Hi. by apply H2.
  - lia.
  - intros i Hi. apply Hat. rewrite lookup_app_r by lia. apply lookup_replicate. split; [done|lia].
  - rewrite <- (low_low b h) by done. rewrite low_overlay by done. by apply low_low.
  - intros _. by apply low_overlay.
  - rewrite <- (low_low b h) by done. rewrite low_overlay by apply (mem_lt mem Hmem b b). apply (mem_low mem Hmem b b h Hhb).
  - done.
  - done.
  - exists vs, rest. split; [exact Ed|]. split; [|exact Hrest]. cbn [length]. rewrite Nat.sub_succ, Nat.sub_0_r. by rewrite Els.
Qed.
