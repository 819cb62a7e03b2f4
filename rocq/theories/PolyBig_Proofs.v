(** Proofs about the exchange of the big polynomial. *)
From Verif Require Import Base PolyTree_Model PolyTree_Spec PolyTree_Proofs PolyTree_Proofs2 PolyTree_Proofs3 PolyBig_Model PolyBig_Spec.
From Verif Require Prty_Model.
Local Open Scope nat_scope.

Section big.
Context (K : fops) (rep : fT K -> N) (ofN : N -> fT K) (p : N) (HM : modular K rep ofN p).
Local Lemma HK : isField K.
Proof using HM. exact (proj1 HM). Qed.
Local Notation ev := (evalAt K).

Lemma rep_small n : (n < p)%N -> rep (ofN n) = n.
Proof using HM. intros H. destruct HM as (_ & _ & _ & E & _). rewrite E. by apply N.mod_small. Qed.
Lemma rep_zero : rep (f0 K) = 0%N.
Proof using HM.
  destruct HM as ((HF & _) & Hlt & Hof & Hrep & Hadd & _). specialize (Hadd (f0 K) (f0 K)). rewrite (Radd_0_l (F_R HF)) in Hadd. specialize (Hlt (f0 K)).
  destruct (N.lt_ge_cases (rep (f0 K) + rep (f0 K)) p) as [H|H]; [rewrite N.mod_small in Hadd by done; lia|].
  assert ((rep (f0 K) + rep (f0 K)) mod p = rep (f0 K) + rep (f0 K) - p)%N as E; [|lia].
  symmetry. apply (N.mod_unique _ _ 1); lia.
Qed.
Lemma ofN_inj a b : (a < p)%N -> (b < p)%N -> ofN a = ofN b -> a = b.
Proof using HM. intros Ha Hb E. rewrite <- (rep_small a), <- (rep_small b) by done. by rewrite E. Qed.
Lemma ofN_nodup xs : NoDup xs -> Forall (fun x => (x < p)%N) xs -> NoDup (map ofN xs).
Proof using HM.
  induction 1 as [|x xs Hx Hnd IH]; intros Hf; [constructor|]. apply Forall_cons in Hf as [Hf1 Hf2]. cbn. constructor; [|by apply IH].
  intros Hin. apply elem_of_list_fmap in Hin as (y & E & Hy). apply Hx. rewrite (ofN_inj x y); [done|done| |done]. rewrite Forall_forall in Hf2. by apply Hf2.
Qed.
Lemma through_ev q xs ys : through K rep ofN q xs ys -> map (ev q) (map ofN xs) = map ofN ys.
Proof using HM. intros <-. rewrite !map_map. apply map_ext. intros x. destruct HM as (_ & _ & H & _). by rewrite H. Qed.
Lemma ev_through q xs ys : Forall (fun y => (y < p)%N) ys -> map (ev q) (map ofN xs) = map ofN ys -> through K rep ofN q xs ys.
Proof using HM.
  intros Hy E. unfold through. rewrite <- (map_map ofN (fun v => rep (ev q v))), <- (map_map (ev q) rep (map ofN xs)). rewrite E, map_map.
  clear E. induction Hy as [|y ys Hy Hys IH]; [done|]. cbn. rewrite IH. by rewrite rep_small.
Qed.
Lemma recv_done sc1 sc2 sc3 sch1 sch2 sch3 k1 k2 old lim xs ys q : NoDup xs -> Forall (fun x => (x < p)%N) xs -> 2 * 2 ^ k1 <= length xs -> 2 * 2 ^ k2 <= length xs ->
  length old = length xs - 1 -> normal K q -> length q <= length xs -> through K rep ofN q xs ys ->
  recvSlice K rep ofN lim sc1 sc2 sc3 sch1 sch2 sch3 (2 ^ k1) (2 ^ k2) old xs ys = sendCoeffs K rep lim (length xs) q.
Proof using HM.
  intros Hnd Hx Hk1 Hk2 Ho Hq Hlq Ht. pose proof (through_ev _ _ _ Ht) as He. assert (length ys = length xs) as Hly by (unfold through in Ht; rewrite <- Ht; by rewrite map_length).
  unfold recvSlice. destruct (prepare_ok K HK sc1 sc2 sch1 sch2 k1 (map ofN xs)) as (M & t & -> & HM1 & HM2); [by rewrite map_length|].
  destruct (interpolateWith_ok K HK sc3 sch3 k2 (map ofN xs) (map ofN ys) M t old) as (q' & -> & E1 & E2 & E3); [by rewrite map_length|by rewrite !map_length|by apply ofN_nodup|done|done|by rewrite map_length|].
  rewrite (eval_unique K HK (map ofN xs) q' q); [done|by apply ofN_nodup|done|by rewrite map_length|done|done|congruence].
Qed.
Lemma back_id lim q : Forall (fun a => (rep a < lim)%N) q -> map ofN (map (fun a => (rep a mod lim)%N) q) = q.
Proof using HM.
  induction 1 as [|a q Ha Hq IH]; [done|]. cbn. rewrite IH. rewrite N.mod_small by done. destruct HM as (_ & _ & H & _). by rewrite H.
Qed.
Lemma send_done sc1 sc2 sch1 sch2 k lim old n zs q : 2 * 2 ^ k <= n -> n <= length zs -> length old = 2 * n - 1 -> normal K q -> Forall (fun a => (rep a < lim)%N) q ->
  sendSlice K rep ofN lim sc1 sc2 sch1 sch2 (2 ^ k) n old zs (map (fun a => (rep a mod lim)%N) q) = Done (map (fun z => (rep (ev q (ofN z)) mod lim)%N) (take n zs) ++ replicate (length zs - n) 0%N).
Proof using HM.
  intros Hk Hn Ho Hq Hl. pose proof (pow2_pos k). unfold sendSlice. replace (length zs <? n) with false by (symmetry; apply Nat.ltb_ge; lia).
  set (pts := take n (map ofN zs)). assert (length pts = n) as Hp by (unfold pts; rewrite take_length, map_length; lia).
  destruct (build_ok K HK pts sc1 sch1 k) as (tree & Eb & Ht); [lia|]. rewrite Eb.
  unfold recvCoeffs. rewrite back_id by done. rewrite (norm_id K HK) by done. rewrite <- Hp in Ho |- *.
  rewrite (reuse_ok K sc1 sc2 sch1 sch2 k (2 ^ k) q pts old tree HK); [|lia|lia|done|done]. f_equal. rewrite map_app. rewrite Hp. f_equal.
  - unfold pts. rewrite map_map. rewrite firstn_map. by rewrite map_map.
  - generalize (length zs - n). intros m. induction m as [|m IH]; [done|]. cbn. rewrite IH. f_equal. rewrite rep_zero. by destruct lim.
Qed.
Lemma exchange_ok lim s k1 k2 k3 old1 old2 xs ys zs q : NoDup xs -> Forall (fun x => (x < p)%N) xs -> Forall (fun y => (y < lim)%N) ys ->
  2 * 2 ^ k1 <= length xs -> 2 * 2 ^ k2 <= length xs -> 2 * 2 ^ k3 <= length xs -> length xs <= length zs -> length old1 = length xs - 1 -> length old2 = 2 * length xs - 1 ->
  normal K q -> length q = length xs -> Forall (fun a => (rep a < lim)%N) q -> through K rep ofN q xs ys ->
  exists out, bigSlice K rep ofN lim s (2 ^ k1) (2 ^ k2) (2 ^ k3) old1 old2 xs ys zs = Done out /\ length out = length zs /\
    (forall i j x, xs !! i = Some x -> zs !! j = Some x -> j < length xs -> out !! j = ys !! i) /\ (forall j, length xs <= j < length zs -> out !! j = Some 0%N).
Proof using HM.
  intros Hnd Hx Hy Hk1 Hk2 Hk3 Hz Ho1 Ho2 Hq Hlq Hlim Ht. unfold bigSlice. rewrite (recv_done _ _ _ _ _ _ _ _ _ _ _ _ q) by (done || lia).
  unfold sendCoeffs. rewrite Hlq, Nat.ltb_irrefl. rewrite take_ge by lia. rewrite send_done by done. eexists. split; [done|]. split; [|split].
  - rewrite app_length, map_length, take_length, replicate_length. lia.
  - intros i j x Hi Hj Hlt. rewrite lookup_app_l by (rewrite map_length, take_length; lia). rewrite list_lookup_fmap, lookup_take, Hj by done. cbn.
    unfold through in Ht. assert (ys !! i = Some (rep (ev q (ofN x)))) as E by (rewrite <- Ht, list_lookup_fmap, Hi; done). rewrite E. f_equal. apply N.mod_small.
    rewrite Forall_forall in Hy. apply Hy. apply elem_of_list_lookup. by exists i.
  - intros j Hj. rewrite lookup_app_r by (rewrite map_length, take_length; lia). rewrite map_length, take_length. apply lookup_replicate. split; [done|lia].
Qed.
Lemma short_ub lim s k1 k2 T3 old1 old2 xs ys zs q : NoDup xs -> Forall (fun x => (x < p)%N) xs -> 2 * 2 ^ k1 <= length xs -> 2 * 2 ^ k2 <= length xs -> length old1 = length xs - 1 ->
  normal K q -> through K rep ofN q xs ys -> length q < length xs \/ length q = length xs /\ length zs < length xs -> bigSlice K rep ofN lim s (2 ^ k1) (2 ^ k2) T3 old1 old2 xs ys zs = UB.
Proof using HM.
  intros Hnd Hx Hk1 Hk2 Ho1 Hq Ht Hs. unfold bigSlice. rewrite (recv_done _ _ _ _ _ _ _ _ _ _ _ _ q) by (done || lia). unfold sendCoeffs. destruct Hs as [Hs|[Hq' Hz]].
  - by replace (length q <? length xs) with true by (symmetry; apply Nat.ltb_lt; lia).
  - rewrite Hq', Nat.ltb_irrefl. unfold sendSlice. by replace (length zs <? length xs) with true by (symmetry; apply Nat.ltb_lt; lia).
Qed.
End big.
Lemma slices_ok n : let F := N.of_nat (Prty_Model.fieldSizeOf n) in
  (2 ^ 128 < prime128 /\ 2 ^ 128 < primeLast F /\ 2 ^ (F - 256) < primeLast F /\ 2 ^ (F - 256) <= 256 ^ lastBytes F /\ (F mod 8 <> 0 -> primeLast F < 256 ^ lastBytes F))%N.
Proof.
  cbn zeta. unfold Prty_Model.fieldSizeOf. repeat match goal with |- context[if ?c then _ else _] => destruct c end.
  all: split; [by vm_compute|]; split; [by vm_compute|]; split; [by vm_compute|]; split; [by vm_compute|]; intros H; first [by vm_compute|exfalso; apply H; by vm_compute].
Qed.
