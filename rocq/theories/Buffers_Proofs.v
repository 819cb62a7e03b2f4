(** Proofs about the two buffers. *)
From Verif Require Import Base Masks_Model Buffers_Model.
Local Open Scope N_scope.

Lemma store_fits size h : size <= 16 -> size <= N.of_nat (length h) ->
  exists m, storeMask size h = Done m /\ length m = 16%nat /\ take (N.to_nat size) m = take (N.to_nat size) h.
Proof.
  intros H Hh. unfold storeMask. destruct (N.ltb_spec 16 size); [lia|]. eexists. split; [done|]. split.
  - rewrite app_length, take_length, replicate_length. lia.
  - rewrite take_app_alt; [done|]. rewrite take_length. lia.
Qed.
Lemma bytes_16 s l : (s + l + 7) / 8 <= 16 <-> s + l <= 128.
Proof. split; intros H; [|apply N.lt_succ_r, N.div_lt_upper_bound; lia]. assert ((s + l + 7) / 8 < 17) as H' by lia. apply N.nlt_ge. intros Hn. assert (17 <= (s + l + 7) / 8); [|lia]. apply N.div_le_lower_bound; lia. Qed.
Lemma kkrt_store ssp nS nR h : 0 < nS * nR < 2 ^ 64 ->
  (16 <= length h)%nat ->
  (ssp + N.log2 (nS * nR) <= 128 -> exists b m, kkrtMaskBytes ssp nS nR = Done b /\ kkrtStore ssp nS nR h = Done m /\ length m = 16%nat /\ take (N.to_nat b) m = take (N.to_nat b) h) /\
  (128 < ssp + N.log2 (nS * nR) -> kkrtStore ssp nS nR h = UB).
Proof.
  intros [Hp Hlt] Hh. unfold kkrtStore, kkrtMaskBytes, log2Bytes, two64. rewrite N.mod_small by done. destruct (N.eqb_spec (nS * nR) 0); [lia|]. cbn [withSize].
  set (b := (ssp + N.log2 (nS * nR) + 7) / 8). split; intros H.
  - apply bytes_16 in H. destruct (store_fits b h) as (m & E & L & T); [done|unfold b; lia|]. by exists b, m.
  - unfold storeMask. destruct (N.ltb_spec 16 b) as [|Hb]; [done|]. apply bytes_16 in Hb. lia.
Qed.
Lemma prty_store ssp nT nM h : 0 < nT * nM < 2 ^ 64 -> (16 <= length h)%nat -> exists m, prtyStore ssp nT nM h = Done m /\ length m = 16%nat.
Proof.
  intros [Hp Hlt] Hh. unfold prtyStore, prtyMaskBytes, log2Bytes, two64. rewrite N.mod_small by done. destruct (N.eqb_spec (nT * nM) 0); [lia|]. cbn [withSize].
  assert (N.log2 (nT * nM) < 64) by (apply N.log2_lt_pow2; lia). set (b := (40 + N.log2 (nT * nM) + 7) / 8). assert (b <= 16) by (apply bytes_16; lia).
  destruct (store_fits b h) as (m & E & L & _); [done|lia|]. by exists m.
Qed.
Lemma ecdh_store ssp n h : 0 < n < 2 ^ 44 -> (16 <= length h)%nat -> exists m, ecdhStore ssp n h = Done m /\ length m = 16%nat.
Proof.
  intros [Hp Hlt] Hh. unfold ecdhStore, ecdhMaskBytes, log2Bytes. destruct (N.eqb_spec (n * n) 0); [lia|]. cbn [withSize].
  assert (N.log2 (n * n) < 88) by (apply N.log2_lt_pow2; [lia|]; change (2 ^ 88) with (2 ^ 44 * 2 ^ 44); nia). set (b := (40 + N.log2 (n * n) + 7) / 8). assert (b <= 16) by (apply bytes_16; lia).
  destruct (store_fits b h) as (m & E & L & _); [done|lia|]. by exists m.
Qed.

Lemma copy_endless fuel inputs idxs i bin : idxs <> [] -> Forall (fun k => (N.to_nat k < length inputs)%nat) idxs -> binCopy fuel inputs idxs i 0 bin = OutOfFuel.
Proof.
  intros Hne Hf. revert i bin. induction fuel as [|f IH]; intros i bin; [done|]. cbn [binCopy]. destruct idxs as [|k idxs]; [done|].
  destruct (N.ltb_spec 0 (N.of_nat (length (k :: idxs)))) as [_|H]; [|cbn in H; lia]. change ((k :: idxs) !! N.to_nat 0) with (Some k). cbn match.
  apply Forall_cons in Hf as [Hk Hf]. destruct (lookup_lt_is_Some_2 _ _ Hk) as [v Hv]. rewrite Hv. apply IH.
Qed.
Lemma copy_empty fuel inputs i bin : binCopy (S fuel) inputs [] i 0 bin = Done (i, bin).
Proof. done. Qed.
