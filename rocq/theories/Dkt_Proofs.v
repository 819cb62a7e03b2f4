(** Proofs about DKT. *)
From Verif Require Import Base Ecdh_Model Ecdh_Proofs Dcw_Proofs Rr17a_Proofs Dkt_Model Dkt_Spec.
Local Arguments idxRange : simpl never.

(** ** Lists *)

Lemma imap_map_seq {A B} (f : nat -> A -> B) (g : nat -> A) n : imap f (map g (seq 0 n)) = map (fun t => f t (g t)) (seq 0 n).
Proof.
  apply list_eq. intros i. rewrite list_lookup_imap, (list_lookup_fmap g), (list_lookup_fmap (fun t => f t (g t))).
  destruct (decide (i < n)%nat) as [H|H]; [rewrite lookup_seq_lt by done; done|rewrite lookup_seq_ge by lia; done].
Qed.

Lemma zip_with_map_same {A B C X} (h : A -> B -> C) (f : X -> A) (g : X -> B) l : zip_with h (map f l) (map g l) = map (fun x => h (f x) (g x)) l.
Proof. induction l as [|x l IH]; cbn; [done|by rewrite IH]. Qed.

Lemma map_const_length {A B} (f : A -> B) (l : list A) g : (forall x, x ∈ l -> f x = g x) -> map f l = map g l.
Proof. intros H. apply map_ext_in. intros x Hx. apply H. by apply elem_of_list_In. Qed.

(** ** The table *)

Lemma hashs_sub es m e : e ∈ foldl hashsInsert m es -> e ∈ m \/ exists d, d ∈ es /\ e = (d.1 mod two64, d).
Proof.
  revert m. induction es as [|d es IH]; intros m H; cbn in H; [by left|]. apply IH in H as [H|(d' & Hd & ->)].
  - unfold hashsInsert in H. case_bool_decide; [by left|]. apply elem_of_app in H as [H|H%elem_of_list_singleton]; [by left|].
    right. exists d. split; [left|done].
  - right. exists d'. split; [by right|done].
Qed.

Lemma lookupTs_sound es Ts i : lookupTs (foldl hashsInsert [] es) Ts = Some i -> exists k, i = N.of_nat k /\ (Ts, k) ∈ es.
Proof.
  unfold lookupTs. destruct (list_find _ _) as [[j [key [blk k]]]|] eqn:E; [|done].
  apply list_find_Some in E as (E & _ & _). apply elem_of_list_lookup_2 in E. apply hashs_sub in E as [E|(d & Hd & [= -> <-])]; [by apply elem_of_nil in E|].
  case_match eqn:Q; [|done]. intros [= <-]. apply N.eqb_eq in Q as ->. by exists k.
Qed.

Lemma hashs_all es : NoDup (map (fun e : N * nat => e.1 mod two64) es) -> forall m, (forall e, e ∈ es -> e.1 mod two64 ∉ m.*1) ->
  foldl hashsInsert m es = m ++ map (fun e => (e.1 mod two64, e)) es.
Proof.
  induction es as [|d es IH]; intros ND m Hm; cbn; [by rewrite app_nil_r|]. cbn in ND. apply NoDup_cons in ND as [Hd ND].
  unfold hashsInsert at 2. rewrite bool_decide_eq_false_2 by (apply Hm; left). rewrite (IH ND); [by rewrite <- app_assoc|].
  intros e He. rewrite fmap_app. apply not_elem_of_app. split; [apply Hm; by right|]. cbn. rewrite elem_of_list_singleton. intros Q.
  apply Hd. rewrite <- Q. apply (elem_of_list_fmap_1 (fun e : N * nat => e.1 mod two64)). done.
Qed.

Lemma lookupTs_complete es Ts i : NoDup (map (fun e : N * nat => e.1 mod two64) es) -> (Ts, i) ∈ es ->
  lookupTs (foldl hashsInsert [] es) Ts = Some (N.of_nat i).
Proof.
  intros ND Hi. rewrite (hashs_all es ND []) by (intros e _; apply not_elem_of_nil). cbn [app]. unfold lookupTs.
  apply elem_of_list_lookup in Hi as [j Hj].
  assert (list_find (fun e : N * (N * nat) => e.1 = Ts mod two64) (map (fun e : N * nat => (e.1 mod two64, e)) es) = Some (j, (Ts mod two64, (Ts, i)))) as ->.
  { apply list_find_Some. rewrite (list_lookup_fmap (fun e : N * nat => (e.1 mod two64, e))), Hj. split; [done|]. split; [done|].
    intros j' y Hy Hlt. rewrite (list_lookup_fmap (fun e : N * nat => (e.1 mod two64, e))) in Hy.
    destruct (es !! j') as [e|] eqn:He; [|done]. injection Hy as <-. cbn. intros Q.
    pose proof (NoDup_map_lookup (fun e : N * nat => e.1 mod two64) es j' j e (Ts, i) ND He Hj Q). lia. }
  by rewrite N.eqb_refl.
Qed.

(** ** Algebra *)
Section Algebra.
Context (D : dkt) (L : dktLaws D).
Notation "a ⊕ b" := (padd D a b) (at level 50, left associativity).
Notation "a ⊖ b" := (psub D a b) (at level 50, left associativity).
Notation "a ⊗ k" := (pmul D a k) (at level 40, left associativity).

Lemma add_cancel a b c : a ⊕ c = b ⊕ c -> a = b.
Proof using L. intros H. rewrite <- (paddK D L a c), H. apply (paddK D L). Qed.
Lemma sub_move a b c : a ⊖ b = c <-> a = c ⊕ b.
Proof using L. split; [intros <-; by rewrite (psubK D L)|intros ->; by rewrite (paddK D L)]. Qed.
Lemma add_swap a b c d : (a ⊕ b) ⊕ (c ⊕ d) = (a ⊕ c) ⊕ (b ⊕ d).
Proof using L. rewrite <- !(paddA D L). f_equal. rewrite !(paddA D L). f_equal. apply (paddC D L). Qed.
Lemma sub_add a b c d : (a ⊕ b) ⊖ (c ⊕ d) = (a ⊖ c) ⊕ (b ⊖ d).
Proof using L. apply sub_move. rewrite add_swap. by rewrite !(psubK D L). Qed.
Lemma pmul_sub a b k : (a ⊖ b) ⊗ k = a ⊗ k ⊖ b ⊗ k.
Proof using L. symmetry. apply sub_move. by rewrite <- (pmulDl D L), (psubK D L). Qed.
Lemma add_self a b : a ⊕ b = b -> forall c, a ⊕ c = c.
Proof using L.
  intros H c. apply (add_cancel _ _ b). rewrite <- (paddA D L), (paddC D L c b), (paddA D L), H. done.
Qed.
Lemma sub_zero a b c : (a ⊖ b) ⊕ c = c <-> a = b.
Proof using L.
  split.
  - intros H. rewrite <- (psubK D L a b). by apply (add_self _ c).
  - intros ->. apply (add_cancel _ _ b). rewrite <- (paddA D L), (paddC D L c b), (paddA D L), (psubK D L). done.
Qed.

Lemma key_eq back Rs rc : (gg D ⊗ Rs) ⊗ (ssub D (szero D) rc) ⊕ (back ⊕ gg D ⊗ rc) ⊗ Rs = back ⊗ Rs.
Proof using L.
  rewrite (pmulBr D L), (pmulDl D L), (pmulA D L (gg D) rc Rs), (smulC D L rc Rs), <- (pmulA D L (gg D) Rs rc).
  rewrite (paddC D L (back ⊗ Rs)), (paddA D L), (psubK D L). apply (pmul0 D L).
Qed.

Lemma proof_eq P r c k : P ⊗ r ⊕ (P ⊗ k) ⊗ c = P ⊗ sadd D r (smul D c k).
Proof using L. by rewrite (pmulDr D L), (pmulA D L), (smulC D L k c). Qed.

Lemma sums_eq h pch back rc : (back ⊕ gg D ⊗ rc) ⊕ ((pch ⊖ back) ⊕ h ⊗ rc) = pch ⊕ (gg D ⊕ h) ⊗ rc.
Proof using L. rewrite add_swap, (paddC D L back), (psubK D L), (pmulDl D L). done. Qed.

Lemma verdict_eq h pch0 pch back d d' rc rc' e :
  gen D ⊗ sadd D d (smul D rc e) ⊖ (gg D ⊕ h) ⊗ sadd D d' (smul D rc' e)
    = (gen D ⊗ d ⊖ (gg D ⊕ h) ⊗ d') ⊕ ((pch0 ⊕ gen D ⊗ rc) ⊖ ((back ⊕ gg D ⊗ rc') ⊕ ((pch ⊖ back) ⊕ h ⊗ rc'))) ⊗ e
  <-> pch0 ⊗ e = pch ⊗ e.
Proof using L.
  rewrite sums_eq, pmul_sub.
  assert (((pch0 ⊕ gen D ⊗ rc) ⊗ e ⊖ (pch ⊕ (gg D ⊕ h) ⊗ rc') ⊗ e) = (pch0 ⊗ e ⊖ pch ⊗ e) ⊕ (gen D ⊗ smul D rc e ⊖ (gg D ⊕ h) ⊗ smul D rc' e)) as ->.
  { rewrite (pmulDl D L pch0), (pmulDl D L pch), sub_add, !(pmulA D L). done. }
  rewrite !(pmulDr D L), sub_add.
  rewrite !(paddC D L (gen D ⊗ d ⊖ (gg D ⊕ h) ⊗ d')). rewrite <- (sub_zero (pch0 ⊗ e) (pch ⊗ e) (gen D ⊗ smul D rc e ⊖ (gg D ⊕ h) ⊗ smul D rc' e)). split; [intros H; apply add_cancel in H; symmetry; exact H|].
  intros H. f_equal. symmetry. exact H.
Qed.

Lemma special a M Mp c c' phi phi' v : (forall q : pt D, q ⊗ ssub D c c' ⊗ v = q) ->
  a ⊕ Mp ⊗ c = M ⊗ phi -> a ⊕ Mp ⊗ c' = M ⊗ phi' -> Mp = M ⊗ smul D (ssub D phi phi') v.
Proof using L.
  intros Hv H H'. rewrite <- (pmulA D L), (pmulBr D L), <- H, <- H', sub_add.
  rewrite (proj2 (sub_zero a a _) eq_refl), <- (pmulBr D L). symmetry. apply Hv.
Qed.
End Algebra.

(** ** A run *)
Section Run.
Context (D : dkt) (L : dktLaws D) (T : nat) (n : nat).
Context (HT : (0 < T)%nat) (Hw : N.of_nat n * N.of_nat T < 2 ^ 64).
Notation idx := (idxRange n T).
Definition itemsAt (l : list N) (is : list nat) : list N := map (fun i => default 0 (l !! i)) is.

Lemma threadItems_eq l : length l = n -> threadItems T l = Some (map (fun t => itemsAt l (idx t)) (seq 0 T)).
Proof using HT Hw.
  intros Hl. unfold threadItems. rewrite Hl. apply mapM_map. intros t Ht. apply elem_of_seq in Ht. apply inputsAt_eq.
  intros i Hi. rewrite Hl. apply (idxRange_lt n T t i HT Hw); [lia|done].
Qed.

Lemma sized_map {A} (f : nat -> list A) : (forall t, (t < T)%nat -> length (f t) = length (idx t)) -> sized T n (map f (seq 0 T)) = true.
Proof using.
  clear HT Hw. intros H. unfold sized. apply bool_decide_eq_true_2. rewrite map_map. apply map_ext_in. intros t Ht. apply in_seq in Ht. apply H. lia.
Qed.

Lemma concat_items l : length l = n -> concat (map (fun t => itemsAt l (idx t)) (seq 0 T)) = l.
Proof using HT Hw.
  intros <-. unfold itemsAt. rewrite <- (map_map (idxRange (length l) T) (map (fun i => default 0 (l !! i)))).
  rewrite concat_map_map, idxRange_concat by done. apply map_lookup_seq.
Qed.

Context (r : recvRnd D) (s : sendRnd D) (R S : list N) (HR : length R = n) (HS : length S = n).

Definition pts (t : nat) : list (pt D) := map (ptOf D) (itemsAt R (idx t)).
Definition backOf (t : nat) : pt D := default (ptNew D) (last (pts t)).
Definition triples (t : nat) : list (pt D * pt D * pt D) := recvTriples D r t (itemsAt R (idx t)).
Definition theE : sc D := challenge D (pmul D (gen D) (rD r 0%nat)) (map (fun t => map tripleB (triples t)) (seq 0 T)).
Definition entries : list (N * nat) :=
  concat (map (fun t => map (fun i => (maskOf D (pmul D (backOf t) (sRs s)) (default 0 (R !! i)), i)) (idx t)) (seq 0 T)).
Definition outOf : list N := omap (lookupTs (foldl hashsInsert [] entries)) (map (fun y => maskOf D (pmul D (ptOf D y) (sRs s)) y) S).
Definition verdictsOf : list (list bool) :=
  map (fun t => map (fun k => itemProof D theE (sadd D (rD r 0%nat) (smul D (rRc r) theE))
         (padd D (sumPts D (pts 0)) (pmul D (gen D) (rRc r))) (pmul D (gen D) (rD r 0%nat))
         (recvTriple D r t (pts t) k) (sadd D (rDs r t k) (smul D (rRcs r t k) theE))) (seq 0 (length (idx t)))) (seq 0 T).

Lemma triples_length t : length (triples t) = length (idx t).
Proof using. unfold triples, recvTriples, itemsAt. by rewrite map_length, seq_length, map_length. Qed.

Lemma zip_concat {A B X} (f : X -> list A) (g : X -> list B) l : (forall x, x ∈ l -> length (f x) = length (g x)) ->
  zip (concat (map f l)) (concat (map g l)) = concat (map (fun x => zip (f x) (g x)) l).
Proof using.
  induction l as [|x l IH]; intros H; cbn; [done|]. rewrite zip_with_app by (apply H; left). rewrite IH; [done|]. intros y Hy. apply H. by right.
Qed.

Lemma head_threads {A} (f : nat -> A) : head (map f (seq 0 T)) = Some (f 0%nat).
Proof using HT. clear - HT. destruct T; [lia|done]. Qed.

Lemma dkt_run old : dktRun D r s T R S old = Done (old ++ outOf, verdictsOf).
Proof using HT Hw HR HS L.
  unfold dktRun. rewrite (proj2 (Nat.eqb_neq T 0)) by lia. rewrite (threadItems_eq R HR). cbv zeta.
  assert (recvFirst D r (map (fun t => itemsAt R (idx t)) (seq 0 T))
    = mkMsg1 D (padd D (sumPts D (pts 0)) (pmul D (gen D) (rRc r))) (pmul D (gen D) (rD r 0%nat)) (map triples (seq 0 T))) as ->.
  { unfold recvFirst. rewrite head_threads. rewrite (imap_map_seq (recvTriples D r)). done. }
  unfold recvSecond. cbn [m1A m1Items].
  rewrite (map_map triples (map tripleB)). fold theE.
  rewrite (imap_map_seq (fun t (l : list (pt D * pt D * pt D)) => map (fun k => sadd D (rDs r t k) (smul D (rRcs r t k) theE)) (seq 0 (length l)))).
  unfold sendInputS. rewrite (proj2 (Nat.eqb_neq T 0)) by lia. rewrite (threadItems_eq S HS), HS. cbn [m1Items m1A m1X m2Phis m2Phi].
  rewrite sized_map by (intros; apply triples_length). cbn [negb]. cbv zeta.
  rewrite sized_map by (intros t Ht; rewrite map_length, seq_length; apply triples_length). cbn [negb].
  rewrite !(map_map triples). fold theE. rewrite (map_map _ (map (fun x => maskOf D (pmul D (ptOf D x) (sRs s)) x)) (seq 0 T)).
  unfold recvFinish. cbn [sA sAs sZ sPhi sMps sTs m1Items]. rewrite HR. cbv zeta.
  rewrite sized_map by (intros; rewrite map_length; apply triples_length). cbn [negb].
  unfold zProof. cbn [sA sZ sPhi]. rewrite bool_decide_eq_true_2 by apply (proof_eq D L). cbn [negb].
  rewrite sized_map by (intros; rewrite map_length; apply triples_length). cbn [negb].
  rewrite (map_map triples (map tripleM)), !(zip_with_map_same _ _ _ (seq 0 T)).
  match goal with |- context [forallb id (concat (map ?f (seq 0 T)))] => assert (forallb id (concat (map f (seq 0 T))) = true) as -> end.
  { apply forallb_forall. intros b Hb. apply elem_of_list_In, elem_of_concat in Hb as (l & Hb & Hl).
    apply elem_of_list_fmap in Hl as (t & -> & _). rewrite !(zip_with_map_same _ _ _ (triples t)) in Hb.
    apply elem_of_list_fmap in Hb as (it & -> & _). unfold mpProof. cbn [fst snd]. apply bool_decide_eq_true_2. apply (proof_eq D L). }
  cbn [negb]. rewrite sized_map by (intros; unfold itemsAt; by rewrite !map_length). cbn [negb].
  f_equal. f_equal; [f_equal|].
  - unfold outOf. rewrite <- (concat_items S HS) at 1. rewrite <- concat_map_map, map_map, omap_concat, map_map.
    f_equal. assert (forall (h : nat -> list N) E E', E = E' -> map (fun t => omap (lookupTs (foldl hashsInsert [] E)) (h t)) (seq 0 T)
      = map (fun t => omap (lookupTs (foldl hashsInsert [] E')) (h t)) (seq 0 T)) as HE.
    { intros h E ? <-. done. }
    rewrite (map_map (fun t => itemsAt S (idx t))). apply (HE (fun t => map (fun y => maskOf D (pmul D (ptOf D y) (sRs s)) y) (itemsAt S (idx t)))). rewrite <- (idxRange_concat n T HT Hw) at 1. rewrite (imap_map_seq (fun t l => imap _ l)).
    rewrite zip_concat.
    2:{ intros t Ht. rewrite imap_length, zip_with_length, map_length, triples_length. unfold itemsAt. rewrite map_length. lia. }
    unfold entries. f_equal. apply map_ext. intros t.
    unfold triples, recvTriples. unfold itemsAt at 2. rewrite map_length.
    apply list_eq. intros k. rewrite lookup_zip_with, list_lookup_imap, lookup_zip_with.
    rewrite (list_lookup_fmap (fun i => (maskOf D (pmul D (backOf t) (sRs s)) (default 0 (R !! i)), i))).
    assert (forall is : list nat, itemsAt R is !! k = (fun i => default 0 (R !! i)) <$> is !! k) as Hit
      by (intros is; unfold itemsAt; apply (list_lookup_fmap (fun i => default 0 (R !! i)))).
    rewrite Hit. destruct (idx t !! k) as [i|] eqn:Ei.
    + rewrite (list_lookup_fmap (fun it => pmul D (tripleM it) (sRs s))), (list_lookup_fmap (recvTriple D r t _)).
      rewrite lookup_seq_lt by (apply lookup_lt_Some in Ei; lia). cbn. f_equal. f_equal. unfold recvMask. f_equal.
      apply (key_eq D L).
    + destruct (map _ _ !! k); done.
  - unfold verdictsOf. apply map_ext. intros t. rewrite triples_length.
    unfold triples, recvTriples. unfold itemsAt at 2. rewrite map_length. rewrite (zip_with_map_same _ _ _ (seq 0 (length (idx t)))). done.
Qed.
End Run.

(** ** Consequences *)

Lemma NoDup_keys {A} (f : A -> N) (l : list (A * nat)) (g : A * nat -> N) :
  NoDup l.*2 -> (forall e e', e ∈ l -> e' ∈ l -> g e = g e' -> e.2 = e'.2) -> NoDup (map g l).
Proof.
  induction l as [|e l IH]; cbn; intros ND H; [constructor|]. apply NoDup_cons in ND as [He ND]. apply NoDup_cons. split.
  - intros Hin. apply elem_of_list_fmap in Hin as (e' & Q & He'). apply He. rewrite (H e e'); [|left|by right|done].
    by apply (elem_of_list_fmap_1 snd).
  - apply IH; [done|]. intros a b Ha Hb. apply H; by right.
Qed.

Lemma last_map {A B} (f : A -> B) l : last (map f l) = f <$> last l.
Proof. apply (fmap_last f l). Qed.

Section Facts.
Context (D : dkt) (L : dktLaws D) (T : nat).
Context (r : recvRnd D) (s : sendRnd D) (R S : list N) (HL : length S = length R).
Context (HT : (0 < T)%nat) (Hw : N.of_nat (length R) * N.of_nat T < 2 ^ 64).
Notation n := (length R).
Notation idx := (idxRange n T).
Notation es := (entries D T n s R).

Lemma backOf_last t j z : (t < T)%nat -> last (idx t) = Some j -> R !! j = Some z -> backOf D T n R t = ptOf D z.
Proof using. clear HL HT Hw. intros Ht Hj Hz. unfold backOf, pts, itemsAt. rewrite !last_map, Hj. cbn. by rewrite Hz. Qed.

Lemma last_exists t i : (t < T)%nat -> i ∈ idx t -> exists j z, last (idx t) = Some j /\ R !! j = Some z.
Proof using HT Hw.
  clear HL.
  intros Ht Hi. destruct (last (idx t)) as [j|] eqn:E; [|apply last_None in E; rewrite E in Hi; by apply elem_of_nil in Hi].
  exists j. assert (j < n)%nat as Hj. { apply (idxRange_lt n T t j HT Hw Ht). apply last_Some in E as (l & ->). apply elem_of_app. right. left. }
  destruct (lookup_lt_is_Some_2 R j Hj) as [z Hz]. by exists z.
Qed.

Lemma idx_exists i : (i < n)%nat -> exists t, (t < T)%nat /\ i ∈ idx t.
Proof using HT Hw.
  clear HL.
  intros Hi. assert (i ∈ concat (map idx (seq 0 T))) as H by (rewrite (idxRange_concat n T HT Hw); apply elem_of_seq; lia).
  apply elem_of_concat in H as (l & H & Hl). apply elem_of_list_fmap in Hl as (t & -> & Ht). apply elem_of_seq in Ht. exists t. split; [lia|done].
Qed.

Lemma idx_unique t t' i : (t < T)%nat -> (t' < T)%nat -> i ∈ idx t -> i ∈ idx t' -> t = t'.
Proof using HT Hw.
  clear HL.
  intros Ht Ht' H H'. apply (NoDup_concat_map_inj idx (seq 0 T) t t' i); [|apply elem_of_seq; lia|apply elem_of_seq; lia|done|done].
  rewrite (idxRange_concat n T HT Hw). apply NoDup_seq.
Qed.

Lemma lastOfThread_exists i : (i < n)%nat -> exists z, lastOfThread T R i z.
Proof using HT Hw.
  clear HL.
  intros Hi. destruct (idx_exists i Hi) as (t & Ht & H). destruct (last_exists t i Ht H) as (j & z & Hj & Hz).
  exists z, t. split; [done|]. split; [done|]. by exists j.
Qed.

Lemma lastOfThread_unique i z z' : lastOfThread T R i z -> lastOfThread T R i z' -> z = z'.
Proof using HT Hw.
  clear HL.
  intros (t & Ht & H & j & Hj & Hz) (t' & Ht' & H' & j' & Hj' & Hz'). assert (t = t') as <- by by apply (idx_unique t t' i).
  rewrite Hj in Hj'. injection Hj' as <-. rewrite Hz in Hz'. by injection Hz' as <-.
Qed.

Lemma entries_final w i : (w, i) ∈ es <-> finalMask D s T R i w.
Proof using HT Hw.
  clear HL.
  unfold entries. rewrite elem_of_concat. split.
  - intros (l & H & Hl). apply elem_of_list_fmap in Hl as (t & -> & Ht). apply elem_of_seq in Ht.
    apply elem_of_list_fmap in H as (i' & [= -> <-] & Hi). assert (i < n)%nat as Hlt by (apply (idxRange_lt n T t i HT Hw); [lia|done]).
    destruct (lookup_lt_is_Some_2 R i Hlt) as [x Hx]. destruct (last_exists t i ltac:(lia) Hi) as (j & z & Hj & Hz). exists x, z. split; [done|]. split.
    + exists t. split; [lia|]. split; [done|]. by exists j.
    + rewrite (backOf_last t j z) by (done || lia). by rewrite Hx.
  - intros (x & z & Hx & (t & Ht & Hi & j & Hj & Hz) & ->). eexists. split; [|apply (elem_of_list_fmap_1 _ (seq 0 T) t); apply elem_of_seq; lia].
    apply elem_of_list_fmap. exists i. split; [|done]. rewrite (backOf_last t j z) by done. by rewrite Hx.
Qed.

Lemma entries_snd : es.*2 = seq 0 n.
Proof using HT Hw.
  clear HL.
  rewrite <- (idxRange_concat n T HT Hw). unfold entries. rewrite <- (concat_map_map snd). rewrite map_map. f_equal. apply map_ext. intros t.
  rewrite map_map. cbn [snd]. apply map_id.
Qed.

Lemma entries_keys : keysDistinct D s T R -> NoDup (map (fun e : N * nat => e.1 mod two64) es).
Proof using HT Hw.
  clear HL.
  intros HK. apply (NoDup_keys (fun x : N => x)); [rewrite entries_snd; apply NoDup_seq|]. intros [w i] [w' j] He He' Q.
  apply entries_final in He, He'. by apply (HK i j w w').
Qed.

Lemma out_elem i : N.of_nat i ∈ outOf D T n s R S -> exists y, y ∈ S /\ finalMask D s T R i (maskOf D (pmul D (ptOf D y) (sRs s)) y).
Proof using HT Hw.
  clear HL.
  intros H. apply elem_of_list_omap in H as (Ts & HTs & E). apply elem_of_list_fmap in HTs as (y & -> & Hy).
  apply lookupTs_sound in E as (k & Ek & Hk). apply Nat2N.inj in Ek as <-. exists y. split; [done|]. by apply entries_final.
Qed.

Lemma elem_out i y : keysDistinct D s T R -> y ∈ S -> finalMask D s T R i (maskOf D (pmul D (ptOf D y) (sRs s)) y) -> N.of_nat i ∈ outOf D T n s R S.
Proof using HT Hw.
  clear HL.
  intros HK Hy Hf. apply elem_of_list_omap. exists (maskOf D (pmul D (ptOf D y) (sRs s)) y). split.
  - apply (elem_of_list_fmap_1 (fun y => maskOf D (pmul D (ptOf D y) (sRs s)) y)). done.
  - apply lookupTs_complete; [by apply entries_keys|by apply entries_final].
Qed.

Lemma run_done old : dktRun D r s T R S old = Done (old ++ outOf D T n s R S, verdictsOf D T n r R).
Proof using L HL HT Hw. apply dkt_run; done. Qed.

Lemma complete_last old : keysDistinct D s T R ->
  exists out v, dktRun D r s T R S old = Done (out, v) /\
    forall i x, R !! i = Some x -> x ∈ S -> lastOfThread T R i x -> N.of_nat i ∈ out.
Proof using L HL HT Hw.
  intros HK. do 2 eexists. split; [apply run_done|]. intros i x Hx HxS Hl. apply elem_of_app. right. apply (elem_out i x HK HxS).
  exists x, x. done.
Qed.

Lemma idx_short t i : (n <= T)%nat -> (t < T)%nat -> i ∈ idx t -> idx t = [i].
Proof using HT Hw.
  clear HL.
  intros Hn Ht. unfold idxRange, Partition_Model.evenSplit, two64. rewrite !N.mod_small by nia. intros Hi.
  assert (N.of_nat n * (N.of_nat t + 1) / N.of_nat T <= N.of_nat n * N.of_nat t / N.of_nat T + 1) as Hq.
  { rewrite N.mul_add_distr_l, N.mul_1_r. transitivity ((N.of_nat n * N.of_nat t + N.of_nat T) / N.of_nat T).
    - apply N.div_le_mono; lia.
    - replace (N.of_nat n * N.of_nat t + N.of_nat T) with (N.of_nat n * N.of_nat t + 1 * N.of_nat T) by lia. rewrite N.div_add by lia. lia. }
  revert Hi Hq. generalize (N.of_nat n * (N.of_nat t + 1) / N.of_nat T) (N.of_nat n * N.of_nat t / N.of_nat T). intros e b Hi Hq.
  apply elem_of_seq in Hi. replace (N.to_nat e - N.to_nat b)%nat with 1%nat by lia. cbn. f_equal. lia.
Qed.

Lemma complete_short old : (n <= T)%nat -> keysDistinct D s T R ->
  exists out v, dktRun D r s T R S old = Done (out, v) /\ forall i x, R !! i = Some x -> x ∈ S -> N.of_nat i ∈ out.
Proof using L HL HT Hw.
  intros Hn HK. destruct (complete_last old HK) as (out & v & E & H). exists out, v. split; [done|]. intros i x Hx HS. apply (H i x Hx HS).
  destruct (idx_exists i) as (t & Ht & Hi); [by apply lookup_lt_Some in Hx|]. exists t. split; [done|]. split; [done|].
  exists i. by rewrite (idx_short t i Hn Ht Hi).
Qed.

Lemma exact_out : keysDistinct D s T R -> roInjective D s R S ->
  exists out v, dktRun D r s T R S [] = Done (out, v) /\
    forall i, N.of_nat i ∈ out <-> exists x z, R !! i = Some x /\ x ∈ S /\ lastOfThread T R i z /\ pmul D (ptOf D z) (sRs s) = pmul D (ptOf D x) (sRs s).
Proof using L HL HT Hw.
  intros HK HI. do 2 eexists. split; [apply run_done|]. intros i. cbn [app]. split.
  - intros H. apply out_elem in H as (y & Hy & x & z & Hx & Hl & E). symmetry in E. apply HI in E as [E ->]; [|by apply elem_of_list_lookup_2 in Hx| |done].
    + exists y, z. done.
    + destruct Hl as (t & _ & _ & j & _ & Hz). by apply elem_of_list_lookup_2 in Hz.
  - intros (x & z & Hx & HxS & Hl & E). apply (elem_out i x HK HxS). exists x, z. rewrite E. done.
Qed.

Lemma sound_out old : roInjective D s R S ->
  exists out v, dktRun D r s T R S old = Done (old ++ out, v) /\ forall p, p ∈ out -> exists i x, p = N.of_nat i /\ R !! i = Some x /\ x ∈ S.
Proof using L HL HT Hw.
  intros HI. do 2 eexists. split; [apply run_done|]. intros p Hp. pose proof Hp as Hp'.
  apply elem_of_list_omap in Hp' as (Ts & _ & E). apply lookupTs_sound in E as (i & -> & _). exists i.
  apply out_elem in Hp as (y & Hy & x & z & Hx & Hl & E). symmetry in E. apply HI in E as [E ->]; [|by apply elem_of_list_lookup_2 in Hx| |done].
  - by exists y.
  - destruct Hl as (t & _ & _ & j & _ & Hz). by apply elem_of_list_lookup_2 in Hz.
Qed.

Lemma no_abort old : exists out v, dktRun D r s T R S old = Done (out, v).
Proof using L HL HT Hw. do 2 eexists. apply run_done. Qed.

Lemma verdict_iff t k : gggS D = gggR D ->
  (exists x, (exists i, idx t !! k = Some i /\ R !! i = Some x)) -> (t < T)%nat ->
  exists b, entryAt (verdictsOf D T n r R) t k = Some b /\
   (b = true <-> pmul D (sumPts D (pts D T n R 0)) (theE D T n r R) = pmul D (sumPts D (pts D T n R t)) (theE D T n r R)).
Proof using L HT Hw.
  clear HL.
  intros Hg (x & i & Hi & Hx) Ht. unfold entryAt, verdictsOf. rewrite (list_lookup_fmap (fun t => map _ _)), lookup_seq_lt by done. cbn [fmap option_fmap option_map].
  change (0 + t)%nat with t.
  rewrite (list_lookup_fmap (fun k => itemProof _ _ _ _ _ _ _)), lookup_seq_lt by (by apply lookup_lt_Some in Hi). cbn [fmap option_fmap option_map].
  change (0 + k)%nat with k. eexists. split; [done|]. unfold itemProof. rewrite bool_decide_eq_true. rewrite Hg.
  unfold recvTriple, tripleM, tripleN, tripleB. cbn [fst snd]. apply (verdict_eq D L).
Qed.
End Facts.

Lemma verdict_one D (L : dktLaws D) r s R S old : length S = length R -> N.of_nat (length R) < 2 ^ 64 -> gggS D = gggR D ->
  exists out v, dktRun D r s 1 R S old = Done (out, v) /\ map length v = [length R] /\ Forall (Forall (fun b => b = true)) v.
Proof.
  intros HL Hw Hg. exists (old ++ outOf D 1 (length R) s R S), (verdictsOf D 1 (length R) r R). split; [apply run_done; [done|done|lia|lia]|].
  assert (idxRange (length R) 1 0 = seq 0 (length R)) as E.
  { pose proof (idxRange_concat (length R) 1 ltac:(lia) ltac:(lia)) as E. cbn in E. by rewrite app_nil_r in E. }
  split.
  - unfold verdictsOf. cbn. by rewrite map_length, seq_length, E, seq_length.
  - apply Forall_forall. intros l Hl. apply Forall_forall. intros b Hb.
    apply elem_of_list_lookup in Hl as [t Ht]. apply elem_of_list_lookup in Hb as [k Hk].
    assert (t = 0)%nat as ->. { apply lookup_lt_Some in Ht. unfold verdictsOf in Ht. rewrite map_length in Ht. cbn in Ht. lia. }
    destruct (verdict_iff D L 1 r R ltac:(lia) ltac:(lia) 0 k Hg) as (b' & Eb & Hb); [|lia|].
    + assert (k < length R)%nat as Hlt. { apply lookup_lt_Some in Hk. unfold verdictsOf in Ht. cbn in Ht. injection Ht as <-. by rewrite map_length, seq_length, E, seq_length in Hk. }
      destruct (lookup_lt_is_Some_2 R k Hlt) as [x Hx]. exists x, k. rewrite E. rewrite lookup_seq_lt by done. done.
    + unfold entryAt in Eb. rewrite Ht, Hk in Eb. injection Eb as ->. by apply Hb.
Qed.

(** ** The receiver's checks *)

Lemma entryAt_map {A B} (f : A -> B) l t k : entryAt (map (map f) l) t k = f <$> entryAt l t k.
Proof. unfold entryAt. rewrite (list_lookup_fmap (map f)). destruct (l !! t) as [q|]; [|done]. cbn. apply (list_lookup_fmap f). Qed.

Lemma finish_checks D r T R items m1 m old out : recvFinish D r T R items m1 m old = Done out ->
  accepts D (map (map tripleM) (m1Items m1)) (sAs m) (sMps m) (sA m) (sZ m) (challenge D (sA m) (sAs m)) (sPhi m).
Proof.
  unfold recvFinish. destruct (negb (sized _ _ (sAs m))); [done|]. cbv zeta. destruct (zProof _ _ _) eqn:EZ; [|done]. cbn [negb].
  destruct (negb (sized _ _ (sMps m))); [done|]. destruct (forallb _ _) eqn:EF; [|done]. intros _. split.
  - unfold zProof in EZ. by apply bool_decide_eq_true in EZ.
  - intros t k M a Mp HM Ha HMp. unfold entryAt in HM, Ha, HMp.
    destruct (map (map tripleM) (m1Items m1) !! t) as [ms|] eqn:E1; [|done]. destruct (sAs m !! t) as [as'|] eqn:E2; [|done]. destruct (sMps m !! t) as [mps|] eqn:E3; [|done].
    rewrite forallb_forall in EF. assert (mpProof D (challenge D (sA m) (sAs m)) (sPhi m) M a Mp = true) as H; [|by apply bool_decide_eq_true in H].
    apply (EF (mpProof D (challenge D (sA m) (sAs m)) (sPhi m) M a Mp)). apply elem_of_list_In, elem_of_concat.
    exists (zip_with (fun M a => mpProof D (challenge D (sA m) (sAs m)) (sPhi m) M a.1 a.2) ms (zip as' mps)). split.
    + apply (elem_of_list_lookup_2 _ k). rewrite lookup_zip_with, HM. cbn. rewrite lookup_zip_with, Ha. cbn. rewrite HMp. done.
    + apply (elem_of_list_lookup_2 _ t). rewrite lookup_zip_with, E1. cbn. rewrite lookup_zip_with, E2. cbn. rewrite E3. done.
Qed.

Lemma finish_oneKey D (L : dktLaws D) (HP : primeOrder D) r T R items m1 m old out c' phi' :
  recvFinish D r T R items m1 m old = Done out -> sized T (length R) (m1Items m1) = true ->
  c' <> challenge D (sA m) (sAs m) -> accepts D (map (map tripleM) (m1Items m1)) (sAs m) (sMps m) (sA m) (sZ m) c' phi' ->
  exists w, oneKey D (map (map tripleM) (m1Items m1)) (sMps m) (sZ m) w /\
    forall t k it Mp back x, entryAt (m1Items m1) t k = Some it -> tripleM it = padd D back (pmul D (gg D) (rRcs r t k)) ->
      entryAt (sMps m) t k = Some Mp -> recvMask D r (sZ m) t k Mp x = maskOf D (pmul D back w) x.
Proof.
  intros HD HS1 Hc [HZ' HM']. pose proof (finish_checks _ _ _ _ _ _ _ _ _ HD) as [HZ HM].
  assert (sized T (length R) (sAs m) = true) as HSA. { unfold recvFinish in HD. destruct (sized _ _ (sAs m)); [done|]. done. }
  destruct (HP (challenge D (sA m) (sAs m)) c') as [v Hv]; [congruence|].
  exists (smul D (ssub D (sPhi m) phi') v).
  assert (oneKey D (map (map tripleM) (m1Items m1)) (sMps m) (sZ m) (smul D (ssub D (sPhi m) phi') v)) as HK.
  { split; [exact (special D L _ _ _ _ _ _ _ _ Hv HZ HZ')|]. intros t k M Mp HMt HMp.
    assert (exists a, entryAt (sAs m) t k = Some a) as [a Ha].
    { rewrite entryAt_map in HMt. destruct (entryAt (m1Items m1) t k) as [it|] eqn:E; [|done].
      unfold sized in *. apply bool_decide_eq_true in HS1, HSA. rewrite <- HS1 in HSA. unfold entryAt in *.
      destruct (m1Items m1 !! t) as [q|] eqn:Eq; [|done]. assert (map length (sAs m) !! t = Some (length q)) as Hl.
      { rewrite HSA. rewrite (list_lookup_fmap length), Eq. done. }
      rewrite (list_lookup_fmap length) in Hl. destruct (sAs m !! t) as [q'|]; [|done]. injection Hl as Hl.
      apply lookup_lt_is_Some_2. rewrite Hl. by apply lookup_lt_Some in E. }
    exact (special D L _ _ _ _ _ _ _ _ Hv (HM t k M a Mp HMt Ha HMp) (HM' t k M a Mp HMt Ha HMp)). }
  split; [done|]. destruct HK as [EZ EK]. intros t k it Mp back x Hit Hb HMp. unfold recvMask. f_equal.
  rewrite (EK t k (tripleM it) Mp); [|by rewrite entryAt_map, Hit|done]. rewrite EZ, Hb. apply (key_eq D L).
Qed.

(** ** The sender's reaction *)

Lemma sender_ignores D s T S m1 m2 m2' : (0 < T)%nat -> N.of_nat (length S) * N.of_nat T < 2 ^ 64 ->
  sized T (length S) (m1Items m1) = true -> sized T (length S) (m2Phis m2) = true -> sized T (length S) (m2Phis m2') = true ->
  exists v v' m, sendInputS D s T S m1 m2 = Done (Some (v, m)) /\ sendInputS D s T S m1 m2' = Done (Some (v', m)).
Proof.
  intros HT Hw H1 H2 H2'. unfold sendInputS. rewrite (proj2 (Nat.eqb_neq T 0)) by lia. rewrite (threadItems_eq T (length S) HT Hw S eq_refl).
  rewrite H1, H2, H2'. cbn [negb]. cbv zeta. eauto.
Qed.

Lemma sender_sizes D s T S m1 m2 : N.of_nat (length S) * N.of_nat T < 2 ^ 64 ->
  sized T (length S) (m1Items m1) && sized T (length S) (m2Phis m2) = false -> sendInputS D s T S m1 m2 = Thrown None.
Proof.
  intros Hw H. unfold sendInputS. destruct (Nat.eqb_spec T 0); [done|]. rewrite (threadItems_eq T (length S) ltac:(lia) Hw S eq_refl).
  apply andb_false_iff in H as [-> | H]; [done|]. cbv zeta. rewrite H. by destruct (negb _).
Qed.

(** ** An instance: the integers modulo 11 *)

Definition F11 : Type := { v : N | Is_true (v <? 11) }.
Lemma mod11_lt v : Is_true (v mod 11 <? 11).
Proof. apply Is_true_true, N.ltb_lt. apply N.mod_lt. lia. Qed.
Definition f11 (v : N) : F11 := exist _ (v mod 11) (mod11_lt v).
Definition v11 (a : F11) : N := proj1_sig a.
Lemma v11_inj a b : v11 a = v11 b -> a = b.
Proof. destruct a as [a Ha], b as [b Hb]. cbn. intros ->. f_equal. apply proof_irrel. Qed.
Global Instance F11_eq : EqDecision F11.
Proof. intros a b. destruct (N.eq_dec (v11 a) (v11 b)) as [E|E]; [left; by apply v11_inj|right; congruence]. Defined.
Definition all11 : list N := map N.of_nat (seq 0 11).
Lemma v11_all a : In (v11 a) all11.
Proof.
  destruct a as [a Ha]. cbn [v11 proj1_sig]. apply Is_true_true, N.ltb_lt in Ha. unfold all11, v11, proj1_sig. apply in_map_iff. exists (N.to_nat a). split; [lia|]. apply in_seq. lia.
Qed.
Lemma by11 (P : N -> N -> N -> bool) : forallb (fun a => forallb (fun b => forallb (fun c => P a b c) all11) all11) all11 = true ->
  forall a b c : F11, P (v11 a) (v11 b) (v11 c) = true.
Proof.
  intros H a b c. rewrite forallb_forall in H. specialize (H _ (v11_all a)). rewrite forallb_forall in H. specialize (H _ (v11_all b)).
  rewrite forallb_forall in H. apply (H _ (v11_all c)).
Qed.

Definition tok (t : F11 + N) : N := 1 + match t with inl p => v11 p | inr x => 11 + x end.
Definition add11 (a b : F11) : F11 := f11 (v11 a + v11 b).
Definition sub11 (a b : F11) : F11 := f11 (v11 a + 11 - v11 b).
Definition mul11 (a b : F11) : F11 := f11 (v11 a * v11 b).
(** Oracles that pack the updates into a number. *)
Definition D11 (gR gS : N) : dkt :=
  mkDkt F11 F11 F11_eq add11 sub11 mul11 add11 sub11 mul11 (f11 0) (f11 1) (f11 3) (f11 gR) (f11 gS) (f11 0) f11 f11
    (foldl (fun a t => a * 128 + tok t) 0) (foldl (fun a t => a * 131 + tok t) 5).

Lemma D11_laws gR gS : dktLaws (D11 gR gS).
Proof.
  split; cbn [D11 pt sc padd psub pmul sadd ssub smul szero].
  - intros a b. apply v11_inj, N.eqb_eq. refine (by11 (fun a b _ => (a + b) mod 11 =? (b + a) mod 11) _ a b a). vm_compute. done.
  - intros a b c. apply v11_inj, N.eqb_eq. refine (by11 (fun a b c => (a + (b + c) mod 11) mod 11 =? ((a + b) mod 11 + c) mod 11) _ a b c). vm_compute. done.
  - intros a b. apply v11_inj, N.eqb_eq. refine (by11 (fun a b _ => ((a + 11 - b) mod 11 + b) mod 11 =? a) _ a b a). vm_compute. done.
  - intros a b. apply v11_inj, N.eqb_eq. refine (by11 (fun a b _ => ((a + b) mod 11 + 11 - b) mod 11 =? a) _ a b a). vm_compute. done.
  - intros a b c. apply v11_inj, N.eqb_eq. refine (by11 (fun a b k => ((a + b) mod 11 * k) mod 11 =? ((a * k) mod 11 + (b * k) mod 11) mod 11) _ a b c). vm_compute. done.
  - intros a b c. apply v11_inj, N.eqb_eq. refine (by11 (fun a k l => (a * ((k + l) mod 11)) mod 11 =? ((a * k) mod 11 + (a * l) mod 11) mod 11) _ a b c). vm_compute. done.
  - intros a b c. apply v11_inj, N.eqb_eq. refine (by11 (fun a k l => (a * ((k + 11 - l) mod 11)) mod 11 =? ((a * k) mod 11 + 11 - (a * l) mod 11) mod 11) _ a b c). vm_compute. done.
  - intros a b c. apply v11_inj, N.eqb_eq. refine (by11 (fun a k l => ((a * k) mod 11 * l) mod 11 =? (a * ((k * l) mod 11)) mod 11) _ a b c). vm_compute. done.
  - intros a b. apply v11_inj, N.eqb_eq. refine (by11 (fun a b _ => (a * b) mod 11 =? (b * a) mod 11) _ a b a). vm_compute. done.
  - intros a b. apply v11_inj, N.eqb_eq. refine (by11 (fun a b _ => ((a * (0 mod 11)) mod 11 + b) mod 11 =? b) _ a b a). vm_compute. done.
Qed.
Lemma D11_prime gR gS : primeOrder (D11 gR gS).
Proof.
  intros k l Hkl. cbn in *. exists (f11 ((v11 k + 11 - v11 l) ^ 9)). intros a. apply v11_inj. cbn.
  assert (((v11 a * ((v11 k + 11 - v11 l) mod 11)) mod 11 * ((v11 k + 11 - v11 l) ^ 9 mod 11)) mod 11 =? v11 a = true
    \/ (v11 k =? v11 l) = true) as [H|H].
  { apply orb_true_iff. apply (by11 (fun a k l => (((a * ((k + 11 - l) mod 11)) mod 11 * ((k + 11 - l) ^ 9 mod 11)) mod 11 =? a) || (k =? l))). vm_compute. done. }
  - by apply N.eqb_eq in H.
  - apply N.eqb_eq, v11_inj in H. congruence.
Qed.

(** Checking the hypotheses on instances. *)
Lemma keys_check D s T R : (0 < T)%nat -> N.of_nat (length R) * N.of_nat T < 2 ^ 64 ->
  bool_decide (NoDup (map (fun e : N * nat => e.1 mod two64) (entries D T (length R) s R))) = true -> keysDistinct D s T R.
Proof.
  intros HT Hw H i j w w' Hi Hj E. apply bool_decide_eq_true in H.
  apply (entries_final D T s R HT Hw) in Hi, Hj. pose proof (NoDup_map_inj_on _ _ _ _ H Hi Hj E) as Q. by injection Q.
Qed.
Lemma ro_check (D : dkt) s R S :
  forallb (fun x => forallb (fun z => forallb (fun y =>
    negb (maskOf D (pmul D (ptOf D z) (sRs s)) x =? maskOf D (pmul D (ptOf D y) (sRs s)) y) ||
    (bool_decide (pmul D (ptOf D z) (sRs s) = pmul D (ptOf D y) (sRs s)) && (x =? y))) S) R) R = true -> roInjective D s R S.
Proof.
  intros H x z y Hx Hz Hy E. rewrite forallb_forall in H. specialize (H x (proj1 (elem_of_list_In _ _) Hx)). rewrite forallb_forall in H.
  specialize (H z (proj1 (elem_of_list_In _ _) Hz)). rewrite forallb_forall in H. specialize (H y (proj1 (elem_of_list_In _ _) Hy)).
  apply N.eqb_eq in E. rewrite E in H. cbn in H. apply andb_true_iff in H as [H1 H2]. apply bool_decide_eq_true in H1. apply N.eqb_eq in H2. done.
Qed.
