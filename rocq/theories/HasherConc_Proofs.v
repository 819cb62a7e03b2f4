(** Proofs about concurrent insertions in [CuckooHasher]: the invariant. *)
From stdpp Require Import sets.
From Verif Require Import Base CuckooHasher_Model CuckooHasher_Spec CuckooHasher_Proofs
  CuckooHasher_Proofs2 CuckooHasher_Proofs3 HasherConc_Model HasherConc_Spec.

Section inv.
Context (n : N) (all : list (N * list N)).

(** Indices that a thread has in hand, whose rows it is writing, whose rows are final. *)
Definition hands (p : pc) : list N :=
  match p with
  | Idle => []
  | Check idx _ => [idx]
  | Write _ _ items | Fetch _ _ items _ | Stash _ items _ | Failed items | Stuck items => items.*1
  | Exch _ _ items _ olds => (drop (length olds) items).*1 ++ occ olds
  end.
Definition writing (p : pc) : list N := match p with Write _ _ items => items.*1 | _ => [] end.
Definition settled (p : pc) : list N :=
  match p with Fetch _ _ _ _ | Exch _ _ _ _ _ | Stash _ _ _ => hands p | _ => [] end.
Definition callIdx (o : call) : list N :=
  match o with CInsert i _ => [i] | CBatch _ idxs _ => idxs end.
Definition owned (t : thread) : list N := hands (tPc t) ++ concat (map callIdx (tProg t)).

Definition rowAll (c : Hasher) (i : N) : Prop := forall row, (i, row) ∈ all -> hasRow c i row.

Definition single (m : mode) (items : list (N * N)) : Prop := m = One -> length items = 1%nat.

Definition pendOK (c : Hasher) (pend items : list (N * N)) : Prop :=
  (forall k x, (k, x) ∈ pend -> exists i row j, i ∈ items.*1 /\ (i, row) ∈ all /\ j < hNum c /\
     k = i * hNum c + j /\ row !! N.to_nat j = Some x) /\
  (forall i row j, i ∈ items.*1 -> (i, row) ∈ all -> j < hNum c ->
     cell c i j = row !! N.to_nat j \/ exists x, (i * hNum c + j, x) ∈ pend).

Definition addrsOK (c : Hasher) (items : list (N * N)) (addrs : list N) (k0 : nat) : Prop :=
  forall k i h a, (k0 <= k)%nat -> items !! k = Some (i, h) -> addrs !! k = Some a ->
    exists x, cell c i h = Some x /\ a = x mod N.of_nat (length (hBins c)).

Definition pcOK (c : Hasher) (p : pc) : Prop :=
  match p with
  | Idle => True
  | Check idx row => (idx, row) ∈ all /\ cell c idx 0 = Some minus1
  | Write m pend items => Forall (lane n (hNum c)) items /\ single m items /\ pendOK c pend items
  | Fetch m tries items addrs => Forall (lane n (hNum c)) items /\ single m items /\
      (length addrs <= length items)%nat /\ addrsOK c items addrs 0
  | Exch m tries items addrs olds => Forall (lane n (hNum c)) items /\ single m items /\
      length addrs = length items /\ (length olds <= length items)%nat /\ Forall (word n (hNum c)) olds /\
      addrsOK c items addrs (length olds)
  | Stash m items j => Forall (lane n (hNum c)) items /\ (N.to_nat j <= length (hStash c))%nat /\
      forall k, (k < N.to_nat j)%nat -> hStash c !! k ≠ Some minus1
  | Failed _ | Stuck _ => minus1 ∉ hStash c
  end.

Definition progOK (c : Hasher) (prog : list call) : Prop :=
  exists os, prog = map callOf os /\ Forall wsOk os /\
    Forall (fun x => x ∈ all /\ cell c x.1 0 = Some minus1) (opsItems os).

Definition threadOK (c : Hasher) (t : thread) : Prop :=
  pcOK c (tPc t) /\ Forall (rowAll c) (settled (tPc t)) /\ progOK c (tProg t).

Record CInv (g : config) : Prop := {
  ci_wf : WF n (gTable g);
  ci_nodup : NoDup all.*1;
  ci_items : Forall (fun x => valid n x.1 /\ N.of_nat (length x.2) = hNum (gTable g)) all;
  ci_perm : Permutation (stored (gTable g) ++ concat (map owned (gThreads g))) all.*1;
  ci_rows : Forall (rowAll (gTable g)) (stored (gTable g));
  ci_threads : forall k t, gThreads g !! k = Some t -> threadOK (gTable g) t }.

Lemma settled_hands p i : i ∈ settled p -> i ∈ hands p /\ writing p = [].
Proof. destruct p; simpl; try (intros H; by apply elem_of_nil in H); done. Qed.

Lemma writing_hands p i : i ∈ writing p -> i ∈ hands p.
Proof. destruct p; simpl; try (intros H; by apply elem_of_nil in H); done. Qed.

Lemma progIdx_ops os : concat (map callIdx (map callOf os)) = (opsItems os).*1.
Proof.
  induction os as [|o os IH]; [done|]. rewrite !map_cons. cbn [concat]. rewrite IH.
  unfold opsItems. rewrite map_cons. cbn [concat]. rewrite fmap_app. f_equal. by destruct o.
Qed.

(** What one thread may rely on while another one moves. *)
Definition kept (c c' : Hasher) (mine : list N) : Prop :=
  sizes c c' /\ (forall i j, i ∈ mine -> j < hNum c -> cell c' i j = cell c i j) /\
  (forall k, hStash c' !! k = Some minus1 -> hStash c !! k = Some minus1).

Lemma rowAll_kept c c' i mine : kept c c' mine -> i ∈ mine -> rowAll c i -> rowAll c' i.
Proof.
  intros ((E1 & _ & _) & H & _) Hi R row Hr. eapply hasRow_ext; [done| |by apply R]. intros j Hj. by apply H.
Qed.

Lemma full_kept c c' mine : kept c c' mine -> minus1 ∉ hStash c -> minus1 ∉ hStash c'.
Proof.
  intros (_ & _ & H) Hn Hi. apply Hn. apply elem_of_list_lookup in Hi as [k Hk].
  apply elem_of_list_lookup. exists k. by apply H.
Qed.

Lemma addrsOK_kept c c' items addrs k0 mine : kept c c' mine -> Forall (lane n (hNum c)) items ->
  (forall i, i ∈ (drop k0 items).*1 -> i ∈ mine) -> addrsOK c items addrs k0 -> addrsOK c' items addrs k0.
Proof.
  intros ((E1 & E2 & _) & H & _) F Hm A k i h a Hk Hi Ha.
  destruct (A k i h a Hk Hi Ha) as (x & Hx & ->). exists x. rewrite E2. split; [|done].
  rewrite H; [done| |].
  - apply Hm. apply (elem_of_list_fmap_1 fst _ (i, h)). apply elem_of_list_lookup.
    exists (k - k0)%nat. rewrite lookup_drop. by replace (k0 + (k - k0))%nat with k by lia.
  - rewrite Forall_forall in F. by destruct (F (i, h) (elem_of_list_lookup_2 _ _ _ Hi)).
Qed.

Lemma pcOK_kept c c' p mine : 1 <= hNum c -> kept c c' mine -> (forall i, i ∈ hands p -> i ∈ mine) -> pcOK c p -> pcOK c' p.
Proof.
  intros Hn1 K Hm P. pose proof K as ((E1 & E2 & E3) & H & Hst).
  destruct p; simpl in *; rewrite ?E1; try done.
  - destruct P as [A B]. split; [done|]. rewrite H; [done|by apply Hm; constructor|lia].
  - destruct P as (F & S & P1 & P2). split; [done|]. split; [done|]. split; rewrite E1; [done|].
    intros i row j Hi Hr Hj. rewrite H; [by apply P2|by apply Hm|done].
  - destruct P as (F & S & L & A). split; [done|]. split; [done|]. split; [done|].
    eapply addrsOK_kept; [exact K|done| |done]. intros i Hi. apply Hm. by rewrite drop_0 in Hi.
  - destruct P as (F & S & L & Lo & W & A). split; [done|]. split; [done|]. split; [done|].
    split; [done|]. split; [done|].
    eapply addrsOK_kept; [exact K|done| |done]. intros i Hi. apply Hm. apply elem_of_app. by left.
  - destruct P as (F & L & A). split; [done|]. split; [by rewrite E3|].
    intros k Hk E. apply (A k Hk). by apply Hst.
  - by eapply full_kept.
  - by eapply full_kept.
Qed.

Lemma progOK_kept c c' prog mine : 1 <= hNum c -> kept c c' mine ->
  (forall i, i ∈ concat (map callIdx prog) -> i ∈ mine) -> progOK c prog -> progOK c' prog.
Proof.
  intros Hn ((E1 & _ & _) & H & _) Hm (os & -> & W & F). exists os. split; [done|]. split; [done|].
  rewrite progIdx_ops in Hm. apply Forall_forall. intros x Hx. rewrite Forall_forall in F.
  destruct (F x Hx) as [A B]. split; [done|]. rewrite H; [done| |lia].
  apply Hm. by apply elem_of_list_fmap_1.
Qed.

Lemma threadOK_kept c c' t mine : 1 <= hNum c -> kept c c' mine -> (forall i, i ∈ owned t -> i ∈ mine) ->
  threadOK c t -> threadOK c' t.
Proof.
  unfold owned. intros Hn K Hm (P & R & O). split; [|split].
  - eapply pcOK_kept; [done|exact K| |done]. intros i Hi. apply Hm. apply elem_of_app. by left.
  - rewrite Forall_forall in R |- *. intros i Hi. eapply rowAll_kept; [exact K| |by apply R].
    apply Hm, elem_of_app. left. by apply settled_hands.
  - eapply progOK_kept; [done|exact K| |done]. intros i Hi. apply Hm. apply elem_of_app. by right.
Qed.

Lemma ownedAll_split ts k t : ts !! k = Some t ->
  Permutation (concat (map owned ts)) (owned t ++ concat (map owned (take k ts ++ drop (S k) ts))).
Proof.
  intros H. rewrite <- (take_drop_middle ts k t H) at 1.
  rewrite !map_app, !concat_app, map_cons. cbn [concat]. permN.
Qed.

Lemma owned_other ts k t k' u i : ts !! k = Some t -> ts !! k' = Some u -> k ≠ k' -> i ∈ owned u ->
  i ∈ concat (map owned (take k ts ++ drop (S k) ts)).
Proof.
  intros Hk Hk' Hne Hi. apply elem_of_list_In, in_concat. exists (owned u).
  split; [|by apply elem_of_list_In]. apply in_map, elem_of_list_In.
  apply elem_of_app. destruct (Nat.lt_ge_cases k' k) as [Hl|Hl].
  - left. apply elem_of_list_lookup. exists k'. by rewrite lookup_take.
  - right. apply elem_of_list_lookup. exists (k' - S k)%nat. rewrite lookup_drop.
    by replace (S k + (k' - S k))%nat with k' by lia.
Qed.

(** One thread moves. *)
Lemma CInv_step g k t c' t' : CInv g -> gThreads g !! k = Some t -> WF n c' ->
  (forall rest, (forall i, i ∈ rest -> i ∉ owned t /\ i < n) -> kept (gTable g) c' rest) ->
  (forall i, i ∈ stored c' -> i ∈ stored (gTable g) \/ i ∈ settled (tPc t)) ->
  (forall i, i ∈ stored c' -> rowAll (gTable g) i -> rowAll c' i) ->
  Permutation (stored c' ++ owned t') (stored (gTable g) ++ owned t) ->
  threadOK c' t' ->
  CInv (mkConfig c' (<[k := t']> (gThreads g))).
Proof.
  intros I Hk W K St Sr P T. destruct I as [W0 ND It P0 R0 T0].
  pose proof (sz_num _ _ (wf_sized _ _ W0)) as [Hn _].
  pose proof (ownedAll_split _ _ _ Hk) as Ps.
  assert (NoDup (stored (gTable g) ++ owned t ++ concat (map owned (take k (gThreads g) ++ drop (S k) (gThreads g))))) as ND'.
  { rewrite <- Ps, P0. done. }
  apply NoDup_app in ND' as (_ & _ & ND'). apply NoDup_app in ND' as (_ & ND' & _).
  assert (forall i, i ∈ concat (map owned (take k (gThreads g) ++ drop (S k) (gThreads g))) -> i ∉ owned t /\ i < n) as Hr.
  { intros i Hi. split; [intros Hc; by apply (ND' i Hc)|].
    assert (i ∈ all.*1) as Ha.
    { rewrite <- P0, Ps. apply elem_of_app. right. apply elem_of_app. by right. }
    apply elem_of_list_fmap in Ha as (x & -> & Hx). rewrite Forall_forall in It. apply It, Hx. }
  pose proof (K _ Hr) as K0.
  constructor; cbn [gTable gThreads].
  - done.
  - done.
  - destruct K0 as ((E1 & _) & _). by rewrite E1.
  - rewrite (ownedAll_split (<[k := t']> (gThreads g)) k t')
      by (apply list_lookup_insert; by eapply lookup_lt_Some).
    rewrite take_insert, drop_insert_gt by lia. rewrite Ps in P0. permN.
  - apply Forall_forall. intros i Hi. apply Sr; [done|]. destruct (St i Hi) as [H|H].
    + rewrite Forall_forall in R0. by apply R0.
    + destruct (T0 _ _ Hk) as (_ & S & _). rewrite Forall_forall in S. by apply S.
  - intros k' u Hu. destruct (decide (k' = k)) as [->|Hne].
    + rewrite list_lookup_insert in Hu by (by eapply lookup_lt_Some). by injection Hu as <-.
    + rewrite list_lookup_insert_ne in Hu by done.
      eapply threadOK_kept; [done|exact K0| |by eapply T0]. intros i Hi. by eapply owned_other.
Qed.

Lemma kept_refl c mine : kept c c mine.
Proof. split; [done|]. split; done. Qed.

(** The table is not touched. *)
Lemma CInv_local g k t t' : CInv g -> gThreads g !! k = Some t ->
  Permutation (owned t') (owned t) -> threadOK (gTable g) t' ->
  CInv (mkConfig (gTable g) (<[k := t']> (gThreads g))).
Proof.
  intros I Hk P T. apply (CInv_step g k t); [done|done|apply I| | | | |done].
  - intros rest _. apply kept_refl.
  - intros i Hi. by left.
  - done.
  - by rewrite P.
Qed.

(** ... and only the position changes. *)
Lemma CInv_pc g k t p' : CInv g -> gThreads g !! k = Some t ->
  Permutation (hands p') (hands (tPc t)) -> pcOK (gTable g) p' -> Forall (rowAll (gTable g)) (settled p') ->
  CInv (mkConfig (gTable g) (<[k := mkThread p' (tProg t)]> (gThreads g))).
Proof.
  intros I Hk P T S. apply (CInv_local g k t); [done|done| |].
  - unfold owned. cbn [tPc tProg]. by rewrite P.
  - destruct (ci_threads _ I _ _ Hk) as (_ & _ & O). done.
Qed.


(** ** Cells and writes *)

Lemma item_at g i row : CInv g -> (i, row) ∈ all -> valid n i /\ N.of_nat (length row) = hNum (gTable g).
Proof. intros I H. pose proof (ci_items _ I) as F. rewrite Forall_forall in F. exact (F _ H). Qed.

Lemma rowWrites_spec num : forall from src dst, src + N.of_nat num <= N.of_nat (length from) ->
  exists l, rowWrites num from src dst = Some l /\
    (forall k x, (k, x) ∈ l <-> exists j, (j < num)%nat /\ k = dst + N.of_nat j /\ from !! (N.to_nat src + j)%nat = Some x).
Proof.
  induction num as [|num IH]; intros from src dst Hs; cbn [rowWrites].
  - exists []. split; [done|]. intros k x. split; [intros H; by apply elem_of_nil in H|]. intros (j & Hj & _). lia.
  - destruct (lookup_lt_is_Some_2 from (N.to_nat src)) as [x Hx]; [lia|].
    rewrite (proj2 (readN_Some from src x) Hx).
    destruct (IH from (src + 1) (dst + 1)) as (l & -> & H); [lia|].
    exists ((dst, x) :: l). split; [done|]. intros k y. rewrite elem_of_cons, H. split.
    + intros [E|(j & Hj & -> & Hy)].
      * injection E as -> ->. exists 0%nat. rewrite Nat.add_0_r, N.add_0_r. split; [lia|done].
      * exists (S j). split; [lia|]. split; [lia|]. rewrite <- Hy. f_equal. lia.
    + intros ([|j] & Hj & -> & Hy).
      * left. rewrite Nat.add_0_r, Hx in Hy. injection Hy as ->. by rewrite N.add_0_r.
      * right. exists j. split; [lia|]. split; [lia|]. rewrite <- Hy. f_equal. lia.
Qed.

Lemma rowWrites_len num : forall from src dst l, rowWrites num from src dst = Some l -> length l = num.
Proof.
  induction num as [|num IH]; intros from src dst l; cbn [rowWrites]; [by intros [= <-]|].
  destruct (readN from src); [|done]. destruct (rowWrites num from (src + 1) (dst + 1)) eqn:E; [|done].
  intros [= <-]. simpl. f_equal. by eapply IH.
Qed.

Lemma batchWrites_spec num its : 1 <= num -> forall i pre, n * num < 2 ^ 64 ->
  Forall (fun x => valid n x.1 /\ N.of_nat (length x.2) = num) (pre ++ its) -> N.of_nat (length pre) = i ->
  N.of_nat (length (pre ++ its)) <= n ->
  exists l, batchWrites num its.*1 (concat (pre ++ its).*2) i = Some l /\
    (forall k x, (k, x) ∈ l <-> exists idx row j, (idx, row) ∈ its /\ j < num /\ k = idx * num + j /\ row !! N.to_nat j = Some x).
Proof.
  intros Hn. induction its as [|[idx row] its IH]; intros i pre Hb F Hi Hl.
  - exists []. split; [done|]. intros k x. split; intros H; [by apply elem_of_nil in H|].
    destruct H as (? & ? & ? & H & _). by apply elem_of_nil in H.
  - rewrite fmap_cons. cbn [batchWrites fst].
    assert (length (concat pre.*2) = (length pre * N.to_nat num)%nat) as Lp.
    { apply Forall_app in F as [F _]. clear -F. induction F as [|x pre [_ E] _ IHf]; [done|].
      rewrite fmap_cons. cbn [concat]. rewrite app_length, IHf. simpl length. lia. }
    pose proof F as F0. apply Forall_app in F as [_ F]. apply Forall_cons in F as [[[V1 V2] Lr] F]. cbn [fst snd] in *.
    assert (i * num <= n * num) as Hin.
    { apply N.mul_le_mono_r. rewrite app_length in Hl. lia. }
    assert (idx * num <= n * num) as Hidx by (apply N.mul_le_mono_r; lia).
    rewrite (N.mod_small (i * num)) by (change two64 with (2 ^ 64); lia).
    rewrite (N.mod_small (idx * num)) by (change two64 with (2 ^ 64); lia).
    assert (N.to_nat (i * num) = (length pre * N.to_nat num)%nat) as Ei by lia.
    assert ((pre ++ (idx, row) :: its).*2 = pre.*2 ++ row :: its.*2) as E2 by (by rewrite fmap_app, fmap_cons).
    destruct (rowWrites_spec (N.to_nat num) (concat (pre ++ (idx, row) :: its).*2) (i * num) (idx * num)) as (l & -> & H).
    { rewrite E2, concat_app. cbn [concat]. rewrite !app_length, Lp. lia. }
    destruct (IH (i + 1) (pre ++ [(idx, row)])) as (l' & E' & H'); [done| | | |].
    { by rewrite <- app_assoc. }
    { rewrite app_length. simpl. lia. }
    { by rewrite <- app_assoc. }
    rewrite <- app_assoc in E'. cbn [app] in E'. rewrite E'. exists (l ++ l'). split; [done|].
    intros k x. rewrite elem_of_app, H, H'. setoid_rewrite elem_of_cons. rewrite E2, concat_app. cbn [concat].
    rewrite Ei. split.
    + intros [(j & Hj & -> & Hx)|(idx' & row' & j & Hi' & R)]; [|exists idx', row', j; split; [by right|done]].
      exists idx, row, (N.of_nat j). split; [by left|]. split; [lia|]. split; [done|].
      rewrite lookup_app_r in Hx by lia. rewrite Lp, lookup_app_l in Hx by lia.
      rewrite <- Hx, Nat2N.id. f_equal. lia.
    + intros (idx' & row' & j & [E|Hi'] & Hj & -> & Hx); [|right; by exists idx', row', j].
      injection E as -> ->. left. exists (N.to_nat j). split; [lia|]. split; [lia|].
      rewrite lookup_app_r by lia. rewrite Lp, lookup_app_l by lia. rewrite <- Hx. f_equal. lia.
Qed.

Lemma batchWrites_len num idxs : forall hashs i l, batchWrites num idxs hashs i = Some l ->
  length l = (length idxs * N.to_nat num)%nat.
Proof.
  induction idxs as [|idx idxs IH]; intros hashs i l; cbn [batchWrites]; [by intros [= <-]|].
  destruct (rowWrites _ _ _ _) eqn:E1; [|done]. destruct (batchWrites _ _ _ _) eqn:E2; [|done].
  intros [= <-]. rewrite app_length, (rowWrites_len _ _ _ _ _ E1), (IH _ _ _ E2). simpl. lia.
Qed.

(** One word of the row of [i] is written. *)
Lemma write_cell c i j x : Sized n c -> i < n -> j < hNum c ->
  exists rows', writeN (hRows c) (i * hNum c + j) x = Some rows' /\ Sized n (withRows c rows') /\
    cell (withRows c rows') i j = Some x /\
    (forall i' j', i' < n -> j' < hNum c -> (i' ≠ i \/ j' ≠ j) -> cell (withRows c rows') i' j' = cell c i' j').
Proof.
  intros Sz Hi Hj. destruct (cell_flat n c i j Sz Hi Hj) as (E & [y Hy] & _).
  rewrite Hy in E. symmetry in E. pose proof (lookup_lt_Some _ _ _ E) as Lt.
  exists (<[N.to_nat (i * hNum c + j) := x]> (hRows c)).
  split.
  { unfold writeN. rewrite (proj2 (N.ltb_lt _ _)); [done|]. lia. }
  assert (Sized n (withRows c (<[N.to_nat (i * hNum c + j) := x]> (hRows c)))) as Sz'.
  { destruct Sz as [A B C D]. constructor; cbn [withRows hRows hNum hBins]; try done. by rewrite insert_length. }
  split; [done|]. replace (N.to_nat (i * hNum c + j)) with (N.to_nat (i * hNum c) + N.to_nat j)%nat in * by lia. split.
  - rewrite (proj1 (cell_flat n _ i j Sz' Hi Hj)). cbn [withRows hRows hNum]. apply list_lookup_insert. lia.
  - intros i' j' Hi' Hj' Hne.
    rewrite (proj1 (cell_flat n _ i' j' Sz' Hi' Hj')), (proj1 (cell_flat n c i' j' Sz Hi' Hj')).
    cbn [withRows hRows hNum]. apply list_lookup_insert_ne.
    destruct (N.lt_trichotomy i' i) as [Hl|[->|Hl]].
    + assert ((i' + 1) * hNum c <= i * hNum c) by (apply N.mul_le_mono_r; lia). lia.
    + destruct Hne; [done|lia].
    + assert ((i + 1) * hNum c <= i' * hNum c) by (apply N.mul_le_mono_r; lia). lia.
Qed.

End inv.
