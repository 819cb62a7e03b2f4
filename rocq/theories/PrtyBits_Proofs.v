(** Proofs about the weights of the sender's items in PRTY. *)
From Verif Require Import Base Prty_Model Prty_Spec Prty_Proofs BinProb_Model BinProb_Proofs BinProb_Proofs2 PrtyBits_Spec.

(** ** Counting *)
Definition cntB {A} (f : A -> bool) (l : list A) : N := foldr (fun a n => (if f a then 1 else 0) + n) 0 l.
Lemma cntB_filter {A} (Q : A -> Prop) {dec : forall a, Decision (Q a)} l : sizeN (filter Q l) = cntB (fun a => bool_decide (Q a)) l.
Proof.
  unfold sizeN. induction l as [|a l IH]; [done|]. rewrite filter_cons. cbn [cntB foldr]. fold (cntB (fun a => bool_decide (Q a)) l). rewrite <- IH.
  destruct (decide (Q a)) as [E|E]; [rewrite bool_decide_eq_true_2 by done|rewrite bool_decide_eq_false_2 by done]; cbn [length]; lia.
Qed.
Lemma cntB_ext {A} (f g : A -> bool) l : (forall a, a ∈ l -> f a = g a) -> cntB f l = cntB g l.
Proof.
  induction l as [|a l IH]; intros H; [done|]. cbn [cntB foldr]. fold (cntB f l) (cntB g l). rewrite IH by (intros b Hb; apply H; by right). rewrite (H a) by left. done.
Qed.
Lemma cntB_false {A} (l : list A) : cntB (fun _ => false) l = 0.
Proof. induction l as [|a l IH]; [done|exact IH]. Qed.
Lemma cntB_app {A} (f : A -> bool) l l' : cntB f (l ++ l') = cntB f l + cntB f l'.
Proof. induction l as [|a l IH]; [done|]. cbn [app cntB foldr]. fold (cntB f (l ++ l')) (cntB f l). rewrite IH. lia. Qed.
Lemma cntB_map {A B} (f : B -> bool) (g : A -> B) l : cntB f (map g l) = cntB (fun a => f (g a)) l.
Proof. induction l as [|a l IH]; [done|]. cbn [map cntB foldr]. fold (cntB f (map g l)) (cntB (fun a => f (g a)) l). by rewrite IH. Qed.
Lemma cntB_compl {A} (f : A -> bool) l : cntB f l + cntB (fun a => negb (f a)) l = sizeN l.
Proof.
  unfold sizeN. induction l as [|a l IH]; [done|]. cbn [cntB foldr length]. fold (cntB f l) (cntB (fun a => negb (f a)) l). destruct (f a); cbn [negb]; lia.
Qed.
Lemma cntB_andb {A} (b : bool) (f : A -> bool) l : cntB (fun a => b && f a) l = (if b then 1 else 0) * cntB f l.
Proof. destruct b; [by rewrite N.mul_1_l|]. cbn [andb]. induction l as [|a l IH]; [done|]. cbn [cntB foldr]. fold (cntB (fun _ : A => false) l). lia. Qed.

Fixpoint agree {A} (Q : nat -> A -> bool) (k : nat) (s : list A) : bool := match s with [] => true | a :: s => Q k a && agree Q (S k) s end.
Fixpoint prodN (c : nat -> N) (k m : nat) : N := match m with O => 1 | S m => c k * prodN c (S k) m end.
Lemma cntB_agree {A} (Q : nat -> A -> bool) l m : forall k, cntB (agree Q k) (lists l m) = prodN (fun i => cntB (Q i) l) k m.
Proof.
  induction m as [|m IH]; intros k; [done|]. cbn [lists prodN]. rewrite <- (IH (S k)). generalize (lists l m). intros L.
  enough (forall l', cntB (agree Q k) (concat (map (fun a => map (cons a) L) l')) = cntB (Q k) l' * cntB (agree Q (S k)) L) by done.
  induction l' as [|a l' IHl]; [done|]. cbn [map concat]. rewrite cntB_app, IHl, cntB_map. cbn [agree]. rewrite cntB_andb. cbn [cntB foldr]. fold (cntB (Q k) l'). lia.
Qed.
Lemma lists_elem {A} (l : list A) m s : s ∈ lists l m -> length s = m.
Proof.
  revert s. induction m as [|m IH]; intros s Hs; cbn [lists] in Hs; [by apply elem_of_list_singleton in Hs as ->|].
  apply elem_of_list_In, in_concat in Hs as (x & Hx & Hs). apply in_map_iff in Hx as (a & <- & _). apply in_map_iff in Hs as (s' & <- & Hs'). cbn [length]. f_equal. apply IH. by apply elem_of_list_In.
Qed.
Lemma prodN_const c k m v : (forall i, (k <= i < k + m)%nat -> c i = v) -> prodN c k m = v ^ N.of_nat m.
Proof.
  revert k. induction m as [|m IH]; intros k H; [done|]. cbn [prodN]. rewrite (H k) by lia. rewrite IH by (intros i Hi; apply H; lia). by rewrite Nat2N.inj_succ, N.pow_succ_r'.
Qed.
Lemma lists_size {A} (l : list A) m : sizeN (lists l m) = sizeN l ^ N.of_nat m.
Proof.
  assert (forall B (l : list B), sizeN l = cntB (fun _ => true) l) as E. { intros B l'. unfold sizeN. induction l' as [|a l' IH]; [done|]. cbn [length cntB foldr]. fold (cntB (fun _ : B => true) l'). lia. }
  rewrite !E. transitivity (cntB (agree (fun (_ : nat) (_ : A) => true) 0) (lists l m)).
  - apply cntB_ext. intros s _. symmetry. generalize 0%nat. induction s as [|a s IH]; intros k; [done|apply IH].
  - rewrite cntB_agree. by apply prodN_const.
Qed.
Lemma bits_size m : sizeN (bits m) = 2 ^ N.of_nat m.
Proof. unfold bits. by rewrite lists_size. Qed.

(** [agree] in terms of positions. *)
Lemma agree_nth {A} (Q : nat -> A -> bool) d s : forall k, agree Q k s = true <-> forall i, (i < length s)%nat -> Q (k + i)%nat (nth i s d) = true.
Proof.
  induction s as [|a s IH]; intros k; [cbn; split; [intros _ i Hi; lia|done]|]. cbn [agree]. rewrite andb_true_iff, IH. split.
  - intros [H1 H2] [|i] Hi; [by rewrite Nat.add_0_r|]. cbn [nth length] in *. rewrite <- Nat.add_succ_comm. apply H2. lia.
  - intros H. split; [specialize (H 0%nat); rewrite Nat.add_0_r in H; apply H; cbn; lia|]. intros i Hi. rewrite Nat.add_succ_comm. apply (H (S i)). cbn. lia.
Qed.

(** ** Weights of bit vectors *)
Fixpoint wtF (c : nat -> bool) (k : nat) (u : list bool) : nat := match u with [] => 0%nat | b :: u => ((if xorb b (c k) then 1 else 0) + wtF c (S k) u)%nat end.
Lemma wt_choose c m : forall k w, cntB (fun u => bool_decide (wtF c k u = w)) (bits m) = choose m w.
Proof.
  induction m as [|m IH]; intros k w.
  - unfold bits. cbn [lists cntB foldr wtF]. destruct w as [|w]; [by rewrite bool_decide_eq_true_2|by rewrite bool_decide_eq_false_2].
  - unfold bits. cbn [lists map concat]. rewrite app_nil_r, cntB_app, !cntB_map. cbn [wtF]. fold (bits m). destruct (c k); cbn [xorb].
    + destruct w as [|w].
      * rewrite (cntB_ext _ (fun _ => false)) by (intros a _; apply bool_decide_eq_false_2; lia). rewrite (cntB_ext (fun a => bool_decide (0 + _ = 0)%nat) (fun u => bool_decide (wtF c (S k) u = 0%nat))) by done.
        rewrite IH, !choose_0. rewrite cntB_false. lia.
      * rewrite (cntB_ext _ (fun u => bool_decide (wtF c (S k) u = w))) by (intros a _; apply bool_decide_ext; lia).
        rewrite (cntB_ext (fun a => bool_decide (0 + _ = S w)%nat) (fun u => bool_decide (wtF c (S k) u = S w))) by done. rewrite !IH. cbn [choose]. done.
    + destruct w as [|w].
      * rewrite (cntB_ext (fun a => bool_decide (1 + _ = 0)%nat) (fun _ => false)) by (intros a _; apply bool_decide_eq_false_2; lia). rewrite (cntB_ext (fun a => bool_decide (0 + _ = 0)%nat) (fun u => bool_decide (wtF c (S k) u = 0%nat))) by done.
        rewrite IH, !choose_0. rewrite cntB_false. lia.
      * rewrite (cntB_ext (fun a => bool_decide (1 + _ = S w)%nat) (fun u => bool_decide (wtF c (S k) u = w))) by (intros a _; apply bool_decide_ext; lia).
        rewrite (cntB_ext (fun a => bool_decide (0 + _ = S w)%nat) (fun u => bool_decide (wtF c (S k) u = S w))) by done. rewrite !IH. cbn [choose]. lia.
Qed.
Fixpoint tailN (m K : nat) : N := match K with O => 0 | S K => choose m K + tailN m K end.
Lemma wt_tail c m K : cntB (fun u => bool_decide (wtF c 0 u < K)%nat) (bits m) = tailN m K.
Proof.
  induction K as [|K IH]; [|].
  - cbn [tailN]. rewrite (cntB_ext _ (fun _ => false)) by (intros a _; apply bool_decide_eq_false_2; lia). apply cntB_false.
  - cbn [tailN]. rewrite <- IH, <- (wt_choose c m 0 K). generalize (bits m). intros l. induction l as [|a l IHl]; [done|]. cbn [cntB foldr].
    fold (cntB (fun u => bool_decide (wtF c 0 u < S K)%nat) l) (cntB (fun u => bool_decide (wtF c 0 u < K)%nat) l) (cntB (fun u => bool_decide (wtF c 0 u = K)) l). rewrite IHl.
    destruct (decide (wtF c 0 a = K)) as [E|E].
    + rewrite (bool_decide_eq_true_2 (wtF c 0 a < S K)%nat), (bool_decide_eq_true_2 (wtF c 0 a = K)), (bool_decide_eq_false_2 (wtF c 0 a < K)%nat) by lia. lia.
    + rewrite (bool_decide_eq_false_2 (wtF c 0 a = K)) by done. rewrite (bool_decide_ext (wtF c 0 a < S K)%nat (wtF c 0 a < K)%nat) by lia. lia.
Qed.
Lemma wt_seq c u : forall k, wtF c k u = length (filter (fun i => xorb (nth (i - k) u false) (c i) = true) (seq k (length u))).
Proof.
  induction u as [|b u IH]; intros k; [done|]. cbn [wtF length seq]. rewrite filter_cons, Nat.sub_diag. cbn [nth]. rewrite IH.
  assert (filter (fun i => xorb (nth (i - S k) u false) (c i) = true) (seq (S k) (length u)) = filter (fun i => xorb (nth (i - k) (b :: u) false) (c i) = true) (seq (S k) (length u))) as ->.
  { enough (forall l, Forall (fun i => k < i)%nat l -> filter (fun i => xorb (nth (i - S k) u false) (c i) = true) l = filter (fun i => xorb (nth (i - k) (b :: u) false) (c i) = true) l) as E
      by (apply E, Forall_forall; intros i Hi; apply elem_of_seq in Hi; lia).
    intros l Hl. induction Hl as [|i l Hi _ IHl]; [done|]. rewrite !filter_cons, IHl. replace (i - k)%nat with (S (i - S k))%nat by lia. done. }
  destruct (decide _) as [E|E]; [by rewrite E|]. destruct (xorb b (c k)); done.
Qed.

(** ** The sender's row *)
Local Arguments prfBlk : simpl never.
Local Arguments choiceBlk : simpl never.
Local Arguments truncBlk : simpl never.
Lemma trunc_bit F k : (384 <= F <= 512)%nat -> (k < 128)%nat -> N.testbit (truncBlk F) (N.of_nat k) = (128 * 3 + k <? F)%nat.
Proof.
  intros HF Hk. unfold truncBlk.
  assert (forall l, NoDup l -> Forall (fun i => i < 128)%nat l -> N.testbit (foldr N.lxor 0 (map oneBlk l)) (N.of_nat k) = bool_decide (k ∈ l)) as E.
  - induction l as [|a l IH]; intros Hnd HFo; [apply N.bits_0|]. cbn [map foldr]. apply NoDup_cons in Hnd as [Ha Hnd]. apply Forall_cons in HFo as [Hlt HFo].
    rewrite N.lxor_spec, IH, oneBlk_pow, N.pow2_bits_eqb by done. destruct (N.eqb_spec (N.of_nat a) (N.of_nat k)) as [E|Hne].
    + assert (a = k) as -> by lia. rewrite (bool_decide_eq_false_2 (k ∈ l)), (bool_decide_eq_true_2 (k ∈ k :: l)) by (done || left). done.
    + rewrite xorb_false_l. apply bool_decide_ext. rewrite elem_of_cons. naive_solver lia.
  - rewrite E; [|apply NoDup_seq|apply Forall_forall; intros i Hi%elem_of_seq; lia].
    destruct (Nat.ltb_spec (128 * 3 + k) F); [apply bool_decide_eq_true_2|apply bool_decide_eq_false_2]; rewrite elem_of_seq; lia.
Qed.
Lemma sent_blk P F r j x k : (k < 128)%nat ->
  N.testbit (N.lxor (prfBlk (aesQ P) F j x) (N.land r (choiceBlk P F j))) (N.of_nat k) =
  (128 * j + k <? F)%nat && xorb (N.testbit (aesT P (128 * j + k)%nat x) (N.of_nat k))
    (choice P (128 * j + k)%nat && xorb (xorb (N.testbit (aesT P (128 * j + k)%nat x) (N.of_nat k)) (N.testbit (aesU P (128 * j + k)%nat x) (N.of_nat k))) (N.testbit r (N.of_nat k))).
Proof.
  intros Hk. rewrite N.lxor_spec, N.land_spec, prfBlk_bit, choiceBlk_bit by done. unfold aesQ.
  destruct (_ <? F)%nat; cbn; [|by rewrite andb_false_r]. destruct (choice P _); destruct (N.testbit (aesT P _ _) _), (N.testbit (aesU P _ _) _), (N.testbit r _); done.
Qed.
Lemma sent_bits P F R x i : (384 <= F <= 512)%nat -> length R = 4%nat -> (i < F)%nat ->
  rowBit (sentRow P F R x) i = xorb (colBit (aesT P) x i) (choice P i && differs P R x i).
Proof.
  intros HF HR Hi. destruct R as [|r0 [|r1 [|r2 [|r3 [|]]]]]; try done. unfold differs, colBit, rowBit.
  assert (i / 128 < 4)%nat as Hj by (apply Nat.div_lt_upper_bound; lia). pose proof (Nat.mod_upper_bound i 128 ltac:(lia)) as Hk. pose proof (Nat.div_mod_eq i 128) as Ei.
  set (k := (i mod 128)%nat) in *. set (j := (i / 128)%nat) in *. rewrite Ei in Hi |- *. assert ((128 * j + k <? F)%nat = true) as Hb by (by apply Nat.ltb_lt).
  unfold sentRow, prfRow, truncRow. cbn [seq map zip_with]. cbn [imap Nat.eqb compose].
  destruct j as [|[|[|[|]]]]; [..|lia]; cbn [nth]; rewrite ?N.land_spec, ?trunc_bit by done; rewrite ?Hb, ?andb_true_r; rewrite sent_blk by done; by rewrite Hb.
Qed.

(** ** How many choices give a row *)
Lemma prodN_pow (c : nat -> N) (D : nat -> bool) m : forall k, (forall i, (k <= i < k + m)%nat -> c i = if D i then 1 else 2) ->
  prodN c k m = 2 ^ N.of_nat (m - length (filter (fun i => D i = true) (seq k m))) /\ (length (filter (fun i => D i = true) (seq k m)) <= m)%nat.
Proof.
  induction m as [|m IH]; intros k E; [done|]. cbn [prodN seq]. destruct (IH (S k)) as [-> L]; [intros i Hi; apply E; lia|]. rewrite (E k) by lia. rewrite filter_cons.
  destruct (decide (D k = true)) as [D1|D1].
  - rewrite D1. cbn [length]. split; [|lia]. rewrite N.mul_1_l. f_equal.
  - apply not_true_is_false in D1. rewrite D1. split; [|lia]. rewrite Nat.sub_succ_l, Nat2N.inj_succ, N.pow_succ_r' by done. done.
Qed.
Lemma prodN_zero (c : nat -> N) m : forall k i, (k <= i < k + m)%nat -> c i = 0 -> prodN c k m = 0.
Proof.
  induction m as [|m IH]; intros k i Hi E; [lia|]. cbn [prodN]. destruct (decide (i = k)) as [->|Hne]; [rewrite E; lia|]. rewrite (IH (S k) i) by (done || lia). lia.
Qed.
Definition sameOn (f g : nat -> bool) (F : nat) : Prop := forall i, (i < F)%nat -> f i = g i.
Lemma row_cases P F R x v : (384 <= F <= 512)%nat -> length R = 4%nat ->
  sizeN (filter (fun s => Forall (fun i => rowBit (sentRow (withChoice P s) F R x) i = nth i v false) (seq 0 F)) (bits F)) =
  prodN (fun i => cntB (fun b => eqb (xorb (colBit (aesT P) x i) (b && differs P R x i)) (nth i v false)) [false; true]) 0 F.
Proof.
  intros HF HR. rewrite cntB_filter, <- (cntB_agree (fun i b => eqb (xorb (colBit (aesT P) x i) (b && differs P R x i)) (nth i v false))). apply cntB_ext. intros s Hs. pose proof (lists_elem _ _ _ Hs) as Ls.
  destruct (agree _ 0 s) eqn:E.
  - apply bool_decide_eq_true_2, Forall_forall. intros i [_ Hi]%elem_of_seq. rewrite sent_bits by done. rewrite (agree_nth _ false) in E. specialize (E i ltac:(lia)). cbn [Nat.add] in E. by apply eqb_prop in E.
  - apply bool_decide_eq_false_2. intros H. rewrite Forall_forall in H. apply not_true_iff_false in E. apply E, (agree_nth _ false). intros i Hi. specialize (H i ltac:(apply elem_of_seq; lia)).
    rewrite sent_bits in H by (done || lia). cbn [Nat.add]. unfold differs in *. cbn [withChoice choice aesT aesU] in H. rewrite H. apply eqb_reflx.
Qed.
Lemma row_reached P F R x v : (384 <= F <= 512)%nat -> length R = 4%nat -> (forall i, (i < F)%nat -> differs P R x i = false -> nth i v false = colBit (aesT P) x i) ->
  sizeN (filter (fun s => Forall (fun i => rowBit (sentRow (withChoice P s) F R x) i = nth i v false) (seq 0 F)) (bits F)) = 2 ^ N.of_nat (F - weight P F R x).
Proof.
  intros HF HR Hv. rewrite row_cases by done. refine (proj1 (prodN_pow _ (differs P R x) F 0 _)). intros i Hi. cbn [cntB foldr andb]. specialize (Hv i ltac:(lia)).
  destruct (differs P R x i) eqn:D; [|rewrite Hv by done]; destruct (colBit (aesT P) x i); try destruct (nth i v false); done.
Qed.
Lemma row_unreached P F R x v i : (384 <= F <= 512)%nat -> length R = 4%nat -> (i < F)%nat -> differs P R x i = false -> nth i v false <> colBit (aesT P) x i ->
  sizeN (filter (fun s => Forall (fun i => rowBit (sentRow (withChoice P s) F R x) i = nth i v false) (seq 0 F)) (bits F)) = 0.
Proof.
  intros HF HR Hi D Hv. rewrite row_cases by done. apply (prodN_zero _ F 0 i); [lia|]. cbn [cntB foldr andb]. rewrite D. destruct (colBit (aesT P) x i), (nth i v false); done.
Qed.

(** ** How many families are weak *)
Lemma find_eq (ys : list N) k y : NoDup ys -> ys !! k = Some y -> list_find (eq y) ys = Some (k, y).
Proof.
  intros Hn Hk. apply list_find_Some. split; [done|]. split; [done|]. intros j z Hj Hlt ->. assert (j = k) by (eapply NoDup_lookup; done). lia.
Qed.
Lemma find_none (ys : list N) y : y ∉ ys -> list_find (eq y) ys = None.
Proof. intros Hn. apply list_find_None, Forall_forall. intros z Hz ->. done. Qed.
Definition flip (P : prty) (F : nat) (blks : N -> list N) (y : N) (i : nat) : bool := xorb (colBit (aesT P) y i) (rowBit (polyAt P F (blks y) y) i).
Lemma prf_ext (a b : nat -> N -> N) F x : (forall i, a i x = b i x) -> prfRow a F x = prfRow b F x.
Proof.
  intros E. unfold prfRow. apply map_ext. intros j. unfold prfBlk, prfCols. generalize (columns F (128 * j)). intros l. induction l as [|i l IH]; [done|]. cbn [foldr]. by rewrite IH, E.
Qed.
Lemma poly_same P F blks ys us y : (forall z, z ∈ blks y -> z ∉ ys) -> polyAt (withU P ys us) F (blks y) y = polyAt P F (blks y) y.
Proof.
  intros H. unfold polyAt. cbn [withU interp]. f_equal. unfold binPoints. apply map_ext_in. intros z Hz%elem_of_list_In. f_equal. unfold xorRows. f_equal. apply prf_ext. intros i. cbn [withU aesU]. by rewrite find_none by auto.
Qed.
Lemma weight_wt P F blks ys us k y u : NoDup ys -> (forall z, z ∈ blks y -> z ∉ ys) -> ys !! k = Some y -> us !! k = Some u -> length u = F ->
  weight (withU P ys us) F (polyAt (withU P ys us) F (blks y) y) y = wtF (flip P F blks y) 0 u.
Proof.
  intros Hn Hd Hk Hu Lu. rewrite poly_same by done. rewrite wt_seq, Lu. unfold weight. f_equal.
  enough (forall l, filter (fun i => differs (withU P ys us) (polyAt P F (blks y) y) y i = true) l = filter (fun i => xorb (nth (i - 0) u false) (flip P F blks y i) = true) l) by done.
  induction l as [|i l IH]; [done|]. rewrite !filter_cons, IH. enough (differs (withU P ys us) (polyAt P F (blks y) y) y i = xorb (nth (i - 0) u false) (flip P F blks y i)) as -> by done.
  rewrite Nat.sub_0_r. unfold differs, flip, colBit. cbn [withU aesT aesU]. rewrite (find_eq ys k y) by done. rewrite (nth_lookup_Some _ _ _ _ Hu).
  assert (N.testbit (if nth i u false then 2 ^ N.of_nat (i mod 128) else 0) (N.of_nat (i mod 128)) = nth i u false) as -> by (destruct (nth i u false); [apply N.pow2_bits_true|apply N.bits_0]).
  destruct (nth i u false), (N.testbit (aesT P i y) _), (rowBit _ i); done.
Qed.
Lemma lists_all {A} (l : list A) m s a : s ∈ lists l m -> a ∈ s -> a ∈ l.
Proof.
  revert s. induction m as [|m IH]; intros s Hs Ha; cbn [lists] in Hs; [apply elem_of_list_singleton in Hs as ->; by apply elem_of_nil in Ha|].
  apply elem_of_list_In, in_concat in Hs as (x & Hx & Hs). apply in_map_iff in Hx as (b & <- & Hb). apply in_map_iff in Hs as (s' & <- & Hs').
  apply elem_of_cons in Ha as [->|Ha]; [by apply elem_of_list_In|]. apply (IH s'); [by apply elem_of_list_In|done].
Qed.
Lemma heavy_count P F blks ys : NoDup ys -> (forall y z, y ∈ ys -> z ∈ blks y -> z ∉ ys) ->
  sizeN (weakFamilies P F blks ys) + (2 ^ N.of_nat F - tailN F 128) ^ sizeN ys = sizeN (lists (bits F) (length ys)).
Proof.
  intros Hn Hd. unfold weakFamilies. rewrite cntB_filter.
  rewrite <- (cntB_compl (fun us => bool_decide (Exists (fun y => (weight (withU P ys us) F (polyAt (withU P ys us) F (blks y) y) y < 128)%nat) ys))). f_equal.
  set (Q := fun (k : nat) (u : list bool) => negb (bool_decide (wtF (flip P F blks (nth k ys 0%N)) 0 u < 128)%nat)).
  transitivity (cntB (agree Q 0) (lists (bits F) (length ys))).
  - rewrite cntB_agree. symmetry. unfold sizeN. apply prodN_const. intros i Hi. unfold Q.
    pose proof (cntB_compl (fun u => bool_decide (wtF (flip P F blks (nth i ys 0%N)) 0 u < 128)%nat) (bits F)) as E. rewrite wt_tail, bits_size in E. lia.
  - apply cntB_ext. intros us Hus. pose proof (lists_elem _ _ _ Hus) as Lu. symmetry. apply eq_true_iff_eq. rewrite negb_true_iff, bool_decide_eq_false, (agree_nth _ []). split.
    + intros H i Hi. rewrite Nat.add_0_l in *. assert (i < length ys)%nat as Hy by lia. apply lookup_lt_is_Some_2 in Hy as [y Hy]. apply lookup_lt_is_Some_2 in Hi as [u Hu].
      unfold Q. rewrite (nth_lookup_Some _ _ _ _ Hy), (nth_lookup_Some _ _ _ _ Hu). apply negb_true_iff, bool_decide_eq_false_2. intros Hw. apply H, Exists_exists. exists y.
      pose proof (elem_of_list_lookup_2 _ _ _ Hy) as Iy. split; [done|]. rewrite (weight_wt P F blks ys us i y u); [done|done|by intros z; apply Hd|done|done|].
      eapply lists_elem, lists_all; [exact Hus|by eapply elem_of_list_lookup_2].
    + intros H Hex. apply Exists_exists in Hex as (y & Iy & Hw). apply elem_of_list_lookup in Iy as [i Hy]. assert (i < length us)%nat as Hi by (apply lookup_lt_Some in Hy; lia).
      specialize (H i Hi). apply lookup_lt_is_Some_2 in Hi as [u Hu]. rewrite Nat.add_0_l in H. unfold Q in H. rewrite (nth_lookup_Some _ _ _ _ Hy), (nth_lookup_Some _ _ _ _ Hu) in H.
      apply negb_true_iff, bool_decide_eq_false in H. apply H. pose proof (elem_of_list_lookup_2 _ _ _ Hy) as Iy.
      rewrite (weight_wt P F blks ys us i y u) in Hw; [done|done|by intros z; apply Hd|done|done|]. eapply lists_elem, lists_all; [exact Hus|by eapply elem_of_list_lookup_2].
Qed.

(** ** Bounds *)
Lemma tail_le m K : tailN m K <= 2 ^ N.of_nat m.
Proof. rewrite <- (wt_tail (fun _ => false) m K), <- (bits_size m). rewrite <- (cntB_compl (fun u => bool_decide (wtF (fun _ => false) 0 u < K)%nat) (bits m)). apply N.le_add_r. Qed.
Lemma pow_gap A L m : L <= A -> A ^ N.of_nat (S m) <= (A - L) ^ N.of_nat (S m) + N.of_nat (S m) * L * A ^ N.of_nat m.
Proof.
  intros HL. induction m as [|m IH]; [cbn; lia|]. rewrite (Nat2N.inj_succ (S m)), !N.pow_succ_r'. set (a := A ^ N.of_nat m) in *. set (b := (A - L) ^ N.of_nat (S m)) in *.
  assert (A ^ N.of_nat (S m) = A * a) as E by (unfold a; rewrite Nat2N.inj_succ; apply N.pow_succ_r'). rewrite E in *.
  assert (b <= A * a) as Hb by (rewrite <- E; unfold b; apply N.pow_le_mono_l; lia). set (q := N.of_nat (S m)) in *.
  replace A with ((A - L) + L) at 1 by lia. nia.
Qed.
Lemma weak_upper A L m w : L <= A -> 0 < A -> w + (A - L) ^ m = A ^ m -> m * L * 2 ^ 40 <= A -> 2 ^ 40 * w <= A ^ m.
Proof.
  intros HL HA E Hm. rewrite <- (N2Nat.id m) in *. destruct (N.to_nat m) as [|k]; [cbn in *; lia|]. pose proof (pow_gap A L k HL) as G.
  assert (w <= N.of_nat (S k) * L * A ^ N.of_nat k) as Hw by lia. rewrite (Nat2N.inj_succ k) at 1. rewrite N.pow_succ_r'.
  apply N.le_trans with (2 ^ 40 * (N.of_nat (S k) * L * A ^ N.of_nat k)); [by apply N.mul_le_mono_l|].
  replace (2 ^ 40 * (N.of_nat (S k) * L * A ^ N.of_nat k)) with ((N.of_nat (S k) * L * 2 ^ 40) * A ^ N.of_nat k) by lia. by apply N.mul_le_mono_r.
Qed.
Lemma bernoulli A L m : A ^ N.of_nat (S m) + N.of_nat (S m) * L * A ^ N.of_nat m <= (A + L) ^ N.of_nat (S m).
Proof.
  induction m as [|m IH]; [cbn; lia|]. rewrite (Nat2N.inj_succ (S m)), !N.pow_succ_r'. set (a := A ^ N.of_nat m) in *. set (b := (A + L) ^ N.of_nat (S m)) in *.
  assert (A ^ N.of_nat (S m) = A * a) as E by (unfold a; rewrite Nat2N.inj_succ; apply N.pow_succ_r'). rewrite E in *. set (q := N.of_nat (S m)) in *. nia.
Qed.
Lemma weak_lower A L m w : L <= A -> 0 < A -> 0 < m -> w + (A - L) ^ m = A ^ m -> A < (2 ^ 40 - 1) * (m * L) -> A ^ m < 2 ^ 40 * w.
Proof.
  intros HL HA Hm0 E Hm. rewrite <- (N2Nat.id m) in *. destruct (N.to_nat m) as [|k]; [lia|]. pose proof (bernoulli A L k) as B.
  assert ((A - L) ^ N.of_nat (S k) * (A + L) ^ N.of_nat (S k) <= A ^ N.of_nat (S k) * A ^ N.of_nat (S k)) as G by (rewrite <- !N.pow_mul_l; apply N.pow_le_mono_l; nia).
  set (h := (A - L) ^ N.of_nat (S k)) in *. set (g := (A + L) ^ N.of_nat (S k)) in *. set (q := N.of_nat (S k)) in *.
  assert (A ^ q = A * A ^ N.of_nat k) as Ea by (unfold q; rewrite Nat2N.inj_succ; apply N.pow_succ_r'). set (a := A ^ N.of_nat k) in *. assert (0 < a) as Ha by (unfold a; apply N.neq_0_lt_0, N.pow_nonzero; lia).
  rewrite Ea in *. apply N.nle_gt. intros C. assert ((2 ^ 40 - 1) * (A * a) <= 2 ^ 40 * h) as C1 by lia.
  assert ((2 ^ 40 - 1) * (A * a) * (A * a + q * L * a) <= 2 ^ 40 * (A * a * (A * a))) as C2.
  { apply N.le_trans with (2 ^ 40 * h * g); [by apply N.mul_le_mono|]. rewrite <- N.mul_assoc. by apply N.mul_le_mono_l. }
  replace ((2 ^ 40 - 1) * (A * a) * (A * a + q * L * a)) with (((2 ^ 40 - 1) * (A + q * L)) * (A * a * a)) in C2 by lia.
  replace (2 ^ 40 * (A * a * (A * a))) with ((2 ^ 40 * A) * (A * a * a)) in C2 by lia. apply N.mul_le_mono_pos_r in C2; [|nia]. lia.
Qed.

(** The numbers. *)
Fixpoint tailIter (m : N) (fuel : nat) (k c acc : N) : N := match fuel with O => acc | S f => tailIter m f (k + 1) (c * (m - k) / (k + 1)) (acc + c) end.
Lemma tailIter_ok m K : forall k acc, acc = tailN m k -> tailIter (N.of_nat m) K (N.of_nat k) (choose m k) acc = tailN m (K + k).
Proof.
  induction K as [|K IH]; intros k acc Ha; [done|]. cbn [tailIter]. replace (N.of_nat k + 1) with (N.of_nat (S k)) by lia.
  assert (choose m k * (N.of_nat m - N.of_nat k) / N.of_nat (S k) = choose m (S k)) as ->. { symmetry. apply N.div_unique_exact; [lia|]. pose proof (choose_step m k) as E. replace (N.of_nat m - N.of_nat k) with (N.of_nat (m - k)) by lia. lia. }
  rewrite IH; [f_equal; lia|]. cbn [tailN]. lia.
Qed.
Lemma tail_num m : tailN m 128 = tailIter (N.of_nat m) 128 0 1 0.
Proof. pose proof (tailIter_ok m 128 0 0 eq_refl) as E. rewrite choose_0 in E. rewrite Nat.add_0_r in E. symmetry. exact E. Qed.
