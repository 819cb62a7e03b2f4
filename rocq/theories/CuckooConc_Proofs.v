(** Proofs about concurrent cuckoo insertion. *)
From Verif Require Import Base CuckooIndex_Model CuckooIndex_Proofs CuckooConc_Model.

Definition insIdx (p : list action) : list N :=
  omap (fun a => match a with AIns i => Some i | ASet _ _ => None end) p.

Definition handOf (p : pc) : list N :=
  match p with
  | Hand i _ _ | Scan i _ _ | Put i _ _ | Failed i => [i]
  | Idle | Stuck => []
  end.

Definition owned (t : thread) : list N := handOf (tPc t) ++ insIdx (tProg t).

Definition ownedAll (ts : list thread) : list N := concat (map owned ts).

(** Every hash write precedes the insertion of the same index. *)
Fixpoint progOK (p : list action) : Prop :=
  match p with
  | [] => True
  | ASet i _ :: p' => i ∈ insIdx p' /\ progOK p'
  | AIns _ :: p' => progOK p'
  end.

Definition pcOK (c : Cuckoo) (p : pc) : Prop :=
  match p with
  | Idle | Failed _ => True
  | Hand i hi _ => validIdx c i /\ hi < pNumHashes (cParams c)
  | Scan i hi k => validIdx c i /\ hi < pNumHashes (cParams c) /\ (N.to_nat k <= length (cStash c))%nat /\
      Forall (fun w => isEmpty w = false) (take (N.to_nat k) (cStash c))
  | Put i hi k => validIdx c i /\ hi < pNumHashes (cParams c) /\
      cStash c !! N.to_nat k = Some emptyWord /\
      Forall (fun w => isEmpty w = false) (take (N.to_nat k) (cStash c))
  | Stuck => False
  end.

Record CInv (g : config) (items : list (N * N)) : Prop := {
  ci_wf : WF (gTable g);
  ci_perm : Permutation (stored (gTable g) ++ ownedAll (gThreads g)) (items.*1);
  ci_nodup : NoDup (items.*1);
  ci_valid : Forall (validIdx (gTable g)) (items.*1);
  ci_pc : forall n t, gThreads g !! n = Some t -> pcOK (gTable g) (tPc t);
  ci_prog : forall n t, gThreads g !! n = Some t -> progOK (tProg t) /\
      forall i h, ASet i h ∈ tProg t -> (i, h) ∈ items;
  ci_hash : forall i h, (i, h) ∈ items ->
      cHashes (gTable g) !! N.to_nat i = Some h \/
      exists n t, gThreads g !! n = Some t /\ ASet i h ∈ tProg t }.

Lemma ownedAll_split ts n t : ts !! n = Some t ->
  exists R, Permutation (ownedAll ts) (owned t ++ R) /\
    forall t', Permutation (ownedAll (<[n := t']> ts)) (owned t' ++ R).
Proof.
  intros Hn. exists (ownedAll (take n ts) ++ ownedAll (drop (S n) ts)). unfold ownedAll. split.
  - rewrite <- (take_drop_middle ts n t Hn) at 1. rewrite map_app, concat_app. simpl. permN.
  - intros t'. rewrite insert_take_drop by eauto using lookup_lt_Some.
    rewrite map_app, concat_app. simpl. permN.
Qed.

Lemma pcOK_ext c c' p : shape c c' -> cStash c' = cStash c -> pcOK c p -> pcOK c' p.
Proof.
  intros S E. pose proof S as (Hp & Hlim & Hlh & Hls).
  destruct p; simpl; rewrite ?E, ?Hp; try done; intros (V & ?); (split; [by eapply shape_valid|done]).
Qed.

Lemma thread_update (g : config) n t t' m u :
  gThreads g !! n = Some t -> <[n := t']> (gThreads g) !! m = Some u ->
  (m = n /\ u = t') \/ (m ≠ n /\ gThreads g !! m = Some u).
Proof.
  intros Hn Hm. destruct (decide (m = n)) as [->|Hne].
  - rewrite list_lookup_insert in Hm by eauto using lookup_lt_Some. left. naive_solver.
  - rewrite list_lookup_insert_ne in Hm by done. by right.
Qed.

(** General preservation lemma. *)
Lemma CInv_step g items n t c' t' :
  CInv g items -> gThreads g !! n = Some t ->
  WF c' -> shape (gTable g) c' ->
  Permutation (stored c' ++ owned t') (stored (gTable g) ++ owned t) ->
  pcOK c' (tPc t') ->
  (forall m u, m ≠ n -> gThreads g !! m = Some u -> pcOK c' (tPc u)) ->
  (exists p, tProg t = p ++ tProg t') -> progOK (tProg t') ->
  (forall i h, (i, h) ∈ items -> cHashes (gTable g) !! N.to_nat i = Some h -> cHashes c' !! N.to_nat i = Some h) ->
  (forall i h, ASet i h ∈ tProg t -> ASet i h ∈ tProg t' \/ cHashes c' !! N.to_nat i = Some h) ->
  CInv (mkConfig c' (<[n := t']> (gThreads g))) items.
Proof.
  intros [Wf Pm Nd Vl Pc Pg Hs] Hn W' S P Hpc Hoth (p & Ep) Hprog Hh1 Hh2.
  constructor; simpl; try done.
  - destruct (ownedAll_split _ _ _ Hn) as (R & R1 & R2). specialize (R2 t').
    rewrite <- Pm, R1, R2. permN.
  - eapply Forall_impl; [exact Vl|]. intros x. by apply shape_valid.
  - intros m u Hm. destruct (thread_update g n t t' m u Hn Hm) as [[-> ->]|[Hne Hu]]; [done|]. by eapply Hoth.
  - intros m u Hm. destruct (thread_update g n t t' m u Hn Hm) as [[-> ->]|[Hne Hu]]; [|by eapply Pg].
    split; [done|]. intros i h Hi. destruct (Pg n t Hn) as [_ Hx]. apply Hx. rewrite Ep.
    apply elem_of_app. by right.
  - intros i h Hi. destruct (Hs i h Hi) as [Hx|(m & u & Hm & Hx)]; [left; by eapply Hh1|].
    destruct (decide (m = n)) as [->|Hne].
    + assert (u = t) as -> by congruence. destruct (Hh2 i h Hx) as [?|?]; [right|by left].
      exists n, t'. split; [|done]. apply list_lookup_insert. eauto using lookup_lt_Some.
    + right. exists m, u. split; [|done]. by rewrite list_lookup_insert_ne.
Qed.

Lemma step_CInv g items n : CInv g items -> oneInStash g -> CInv (stepAt g n) items.
Proof.
  intros I One. unfold stepAt. destruct (gThreads g !! n) as [t|] eqn:Hn; [|done].
  pose proof I as [Wf Pm Nd Vl Pc Pg Hs].
  pose proof (Pc n t Hn) as Hpc. destruct (Pg n t Hn) as [Hprog Hset].
  destruct t as [pc p]. simpl in *.
  set (c := gTable g) in *.
  assert (mkConfig c (<[n := mkThread pc p]> (gThreads g)) = g) as Hid.
  { rewrite list_insert_id by done. by destruct g. }
  assert (forall m u, m ≠ n -> gThreads g !! m = Some u -> pcOK c (tPc u)) as Hoth by eauto.
  unfold stepThread. cbn [tPc tProg]. destruct pc as [|i hi lft|i hi k|i hi k|i|]; cbn [pcOK] in Hpc.
  - (* Idle *)
    destruct p as [|[i h|i] p]; [by rewrite Hid| |].
    + (* ASet *)
      destruct Hprog as [Hi Hp].
      assert ((i, h) ∈ items) as Hin by (apply Hset; by constructor).
      assert (i ∈ items.*1) as Hin1 by (apply elem_of_list_fmap; by exists (i, h)).
      assert (validIdx c i) as Vi by (rewrite Forall_forall in Vl; by apply Vl).
      assert (i ∉ stored c) as Hns.
      { intros Hst. destruct (ownedAll_split _ _ _ Hn) as (R & R1 & _).
        assert (Permutation (stored c ++ owned (mkThread Idle (ASet i h :: p)) ++ R) items.*1) as Pm'
          by (rewrite <- Pm, R1; done).
        eapply NoDup_perm in Nd; [|symmetry; exact Pm'].
        apply NoDup_app in Nd as (_ & Nd & _). apply (Nd i Hst). apply elem_of_app. left.
        unfold owned. simpl. done. }
      unfold setHash, writeN. destruct Vi as [Vi1 Vi2].
      destruct (N.ltb_spec i (N.of_nat (length (cHashes c)))); [|lia].
      set (c' := mkCuckoo (cParams c) (cLimit c) (<[N.to_nat i:=h]> (cHashes c)) (cBins c) (cStash c)).
      assert (shape c c') as S by (unfold shape; simpl; rewrite insert_length; done).
      eapply CInv_step; [exact I|exact Hn|..]; cbn [tProg tPc].
      * destruct Wf as [Wl Wp Wh0 Wh3 Wb (ws & kk & Es & Fs)]. constructor; simpl; try done.
        -- intros a w Hw. destruct (Wb a w Hw) as [->|[G E]]; [by left|right].
           split; [eapply goodWord_ext; [..|exact G]; simpl; by rewrite ?insert_length|].
           destruct (goodWord_facts c w Wh3 G) as (He & ?).
           assert (wordIdx w ≠ i) as Hne.
           { intros <-. apply Hns. apply elem_of_app; left. by eapply occ_in. }
           unfold getHashOf, readN in *. rewrite insert_length.
           destruct (wordIdx w <? N.of_nat (length (cHashes c))); [|done].
           rewrite list_lookup_insert_ne by lia. exact E.
        -- exists ws, kk. split; [done|]. eapply Forall_impl; [exact Fs|].
           intros w G. eapply goodWord_ext; [..|exact G]; simpl; by rewrite ?insert_length.
      * exact S.
      * done.
      * done.
      * intros m u Hm Hu. eapply pcOK_ext; [exact S|done|]. by eapply Hoth.
      * by exists [ASet i h].
      * done.
      * intros j x Hj Hx. simpl. destruct (decide (j = i)) as [->|Hne].
        -- assert (x = h) as ->; [|by apply list_lookup_insert].
           by eapply (NoDup_fst_inj items i x h).
        -- rewrite list_lookup_insert_ne by lia. done.
      * intros j x Hj. apply elem_of_cons in Hj as [[= -> ->]|Hj]; [right|by left].
        by apply list_lookup_insert.
    + (* AIns *)
      eapply CInv_step; [exact I|exact Hn|..]; cbn [tProg tPc]; try done.
      * split.
        -- assert (i ∈ items.*1) as Hin1.
           { destruct (ownedAll_split _ _ _ Hn) as (R & R1 & _). rewrite <- Pm, R1.
             apply elem_of_app. right. apply elem_of_app. left. unfold owned. simpl. by constructor. }
           rewrite Forall_forall in Vl. by apply Vl.
        -- apply (wf_h0 _ Wf).
      * by exists [AIns i].
      * intros j x Hj. apply elem_of_cons in Hj as [?|Hj]; [done|by left].
  - (* Hand *)
    destruct Hpc as [[Vi1 Vi2] Hhi].
    destruct (getHashOf_ok c i hi Wf Vi2 Hhi) as (a & Ha & Hab). rewrite Ha.
    destruct (swap_spec c i hi a Wf Vi1 Vi2 Hhi Ha Hab) as (bins' & i' & hi' & -> & W' & S' & Hcase).
    cbn zeta in *.
    eapply CInv_step; [exact I|exact Hn|exact W'|by apply same_shape|..]; cbn [tProg tPc]; try done.
    + unfold owned. cbn [tPc tProg]. destruct Hcase as [[-> P]|(Hi' & Hl' & Hh' & P)].
      * rewrite N.eqb_refl. simpl. fold c. permN.
      * destruct (N.eqb_spec i' nullIdx); [lia|]. destruct lft; simpl; fold c; permN.
    + destruct Hcase as [[-> P]|(Hi' & Hl' & Hh' & P)]; [by rewrite N.eqb_refl|].
      destruct (N.eqb_spec i' nullIdx); [lia|]. destruct lft; cbn [pcOK].
      * split_and!; try done; [simpl; lia|]. constructor.
      * split; [done|]. apply N.mod_lt. pose proof (wf_h0 _ W'). lia.
    + by exists [].
    + intros j x Hj. by left.
  - (* Scan *)
    destruct Hpc as (Vi & Hhi & Hk & Hfull).
    destruct (N.eqb_spec k (N.of_nat (length (cStash c)))) as [->|Hkne].
    + eapply CInv_step; [exact I|exact Hn|..]; cbn [tProg tPc]; try done.
      * by exists [].
      * intros j x Hj. by left.
    + destruct (lookup_lt_is_Some_2 (cStash c) (N.to_nat k)) as [w Hw]; [lia|].
      rewrite (proj2 (readN_Some _ _ w) Hw).
      eapply CInv_step; [exact I|exact Hn|..]; cbn [tProg tPc]; try done.
      * unfold owned. cbn [tPc tProg]. destruct (isEmpty w); done.
      * destruct (isEmpty w) eqn:He; cbn [pcOK].
        -- apply isEmpty_true in He as ->. done.
        -- split; [done|]. split; [done|]. split; [lia|].
           replace (N.to_nat (k + 1)) with (S (N.to_nat k)) by lia.
           rewrite (take_S_r _ _ w Hw). apply Forall_app. split; [done|]. by constructor.
      * by exists [].
      * intros j x Hj. by left.
  - (* Put *)
    destruct Hpc as (Vi & Hhi & Hk & Hfull).
    pose proof (toStash_spec c i hi Wf (proj1 Vi) (proj2 Vi) Hhi) as T.
    unfold toStash in T.
    assert (firstEmpty (cStash c) 0 = Some k) as Hfe.
    { pose proof (firstEmpty_spec (cStash c) 0) as Hf. destruct (firstEmpty (cStash c) 0) as [k'|].
      - destruct Hf as (ws & -> & Fws & st' & Est). f_equal.
        destruct (decide (length ws = N.to_nat k)) as [?|Hne]; [lia|]. exfalso.
        destruct (decide (length ws < N.to_nat k)%nat) as [Hlt|Hge].
        + rewrite Forall_lookup in Hfull. 
          assert (take (N.to_nat k) (cStash c) !! length ws = Some emptyWord) as Hx.
          { rewrite lookup_take by lia. rewrite Est. rewrite lookup_app_r, Nat.sub_diag by lia. done. }
          by specialize (Hfull _ _ Hx).
        + rewrite Forall_lookup in Fws.
          assert (ws !! N.to_nat k = Some emptyWord) as Hx.
          { rewrite Est, lookup_app_l in Hk by lia. done. }
          by specialize (Fws _ _ Hx).
      - rewrite Forall_lookup in Hf. by specialize (Hf _ _ Hk). }
    rewrite Hfe in T.
    destruct (swapAt (cStash c) k i hi) as [[[st' x1] x2]|]; [|done].
    destruct T as (W' & S' & _ & P).
    eapply CInv_step; [exact I|exact Hn|exact W'|by apply same_shape|..]; cbn [tProg tPc]; try done.
    + unfold owned. cbn [tPc tProg handOf]. fold c. permN.
    + intros m u Hm Hu. pose proof (Hoth m u Hm Hu) as Ho.
      destruct (tPc u) eqn:Eu; cbn [pcOK] in *; try done.
      * exfalso. apply Hm. eapply (One m n u _ Hu Hn); cbn [tPc]; [rewrite Eu|]; done.
      * exfalso. apply Hm. eapply (One m n u _ Hu Hn); cbn [tPc]; [rewrite Eu|]; done.
    + by exists [].
    + intros j x Hj. by left.
  - rewrite Hid. done.
  - done.
Qed.

Lemma run_CInv sched : forall g items, CInv g items -> exclusive g sched -> CInv (runSched g sched) items.
Proof.
  induction sched as [|n sched IH]; intros g items I [One Ex]; [done|].
  simpl. apply IH; [|done]. by apply step_CInv.
Qed.

(** ** From the initial configuration *)

Lemma insIdx_app p1 p2 : insIdx (p1 ++ p2) = insIdx p1 ++ insIdx p2.
Proof. apply omap_app. Qed.

Lemma insIdx_sets (l : list (N * N)) : insIdx (map (fun x => ASet x.1 x.2) l) = [].
Proof. induction l; done. Qed.
Lemma insIdx_ins (l : list (N * N)) : insIdx (map (fun x => AIns x.1) l) = l.*1.
Proof. induction l as [|[i h] l IH]; [done|]. exact (f_equal (cons i) IH). Qed.
Lemma insIdx_pairs (l : list (N * N)) :
  insIdx (concat (map (fun x => [ASet x.1 x.2; AIns x.1]) l)) = l.*1.
Proof. induction l as [|[i h] l IH]; [done|]. exact (f_equal (cons i) IH). Qed.

Lemma insIdx_batch items : insIdx (batchProgram items) = items.*1.
Proof.
  unfold batchProgram. rewrite !insIdx_app, insIdx_sets, insIdx_ins, insIdx_pairs, <- fmap_app, take_drop. done.
Qed.

Lemma insIdx_concat bs : insIdx (concat (map batchProgram bs)) = (concat bs).*1.
Proof.
  induction bs as [|b bs IH]; [done|]. cbn [map concat]. rewrite insIdx_app, insIdx_batch, IH, fmap_app. done.
Qed.

Lemma progOK_app p1 p2 : progOK p1 -> progOK p2 -> progOK (p1 ++ p2).
Proof.
  induction p1 as [|[i h|i] p1 IH]; simpl; [done| |].
  - intros [H1 H2] H3. split; [|by apply IH]. rewrite insIdx_app. apply elem_of_app. by left.
  - intros H2 H3. by apply IH.
Qed.

Lemma progOK_sets (l : list (N * N)) p : progOK p -> (forall i, i ∈ l.*1 -> i ∈ insIdx p) ->
  progOK (map (fun x => ASet x.1 x.2) l ++ p).
Proof.
  intros Hp. induction l as [|[i h] l IH]; intros Hl; [done|]. simpl. split.
  - rewrite insIdx_app, insIdx_sets. apply Hl. rewrite fmap_cons. by constructor.
  - apply IH. intros j Hj. apply Hl. rewrite fmap_cons. by constructor.
Qed.

Lemma progOK_batch items : progOK (batchProgram items).
Proof.
  unfold batchProgram. apply progOK_sets.
  - apply progOK_app.
    + induction (take 8 items); done.
    + induction (drop 8 items) as [|[i h] l IH]; [done|]. simpl. split; [by constructor|done].
  - intros i Hi. rewrite insIdx_app, insIdx_ins. apply elem_of_app. by left.
Qed.

Lemma progOK_concat bs : progOK (concat (map batchProgram bs)).
Proof. induction bs as [|b bs IH]; [done|]. apply progOK_app; [apply progOK_batch|done]. Qed.

Lemma ASet_batch i h items : ASet i h ∈ batchProgram items <-> (i, h) ∈ items.
Proof.
  unfold batchProgram. rewrite !elem_of_app.
  assert (forall l : list (N * N), ASet i h ∈ map (fun x => ASet x.1 x.2) l <-> (i, h) ∈ l) as H1.
  { induction l as [|[i' h'] l IH]; simpl; [split; intros X; by apply elem_of_nil in X|]. rewrite !elem_of_cons, IH. naive_solver. }
  assert (forall l : list (N * N), ASet i h ∉ map (fun x => AIns x.1) l) as H2.
  { induction l as [|[i' h'] l IH]; simpl; [intros X; by apply elem_of_nil in X|]. rewrite elem_of_cons. naive_solver. }
  assert (forall l : list (N * N), ASet i h ∈ concat (map (fun x => [ASet x.1 x.2; AIns x.1]) l) <-> (i, h) ∈ l) as H3.
  { induction l as [|[i' h'] l IH]; simpl; [split; intros X; by apply elem_of_nil in X|]. rewrite !elem_of_cons, IH. naive_solver. }
  rewrite H1, H3. pose proof (H2 (take 8 items)).
  assert ((i, h) ∈ items <-> (i, h) ∈ take 8 items \/ (i, h) ∈ drop 8 items) as -> by (by rewrite <- elem_of_app, take_drop).
  naive_solver.
Qed.

Lemma ASet_concat i h bs : ASet i h ∈ concat (map batchProgram bs) <-> (i, h) ∈ concat bs.
Proof.
  induction bs as [|b bs IH]; simpl; [split; intros X; by apply elem_of_nil in X|]. by rewrite !elem_of_app, ASet_batch, IH.
Qed.

Lemma ownedAll_inserters bss :
  ownedAll (map inserter bss) = (concat (concat bss)).*1.
Proof.
  induction bss as [|bs bss IH]; [done|]. cbn [map concat]. rewrite concat_app, fmap_app, <- IH.
  unfold ownedAll. simpl. f_equal. unfold owned. simpl. apply insIdx_concat.
Qed.

From Verif Require Import CuckooIndex_Spec.

Lemma initial_CInv p lim c0 bss :
  legalParams p -> init p (constructed lim) = Done c0 -> legalItems p (concat (concat bss)) ->
  CInv (mkConfig c0 (map inserter bss)) (concat (concat bss)).
Proof.
  intros [Hb Hh] Hi L. destruct (init_Inv p lim c0 Hb Hh Hi) as (I & Hp & Hlim & Hl & Hs).
  constructor; simpl.
  - apply (inv_wf _ _ _ I).
  - rewrite ownedAll_inserters. pose proof (inv_perm _ _ _ I) as P. rewrite app_nil_r in P.
    rewrite P. done.
  - apply L.
  - by eapply legal_valid.
  - intros n t Hn. change (map inserter bss) with (inserter <$> bss) in Hn.
    rewrite list_lookup_fmap in Hn. destruct (bss !! n) as [bs|]; [|done]. injection Hn as <-. done.
  - intros n t Hn. change (map inserter bss) with (inserter <$> bss) in Hn.
    rewrite list_lookup_fmap in Hn. destruct (bss !! n) as [bs|] eqn:Hb'; [|done]. injection Hn as <-.
    split; [apply progOK_concat|]. intros i h Hx. simpl in Hx. apply ASet_concat in Hx.
    apply elem_of_list_lookup_2 in Hb'. apply elem_of_list_In, in_concat.
    apply elem_of_list_In, in_concat in Hx as (b & Hb1 & Hb2). exists b. split; [|done].
    apply in_concat. exists bs. split; [by apply elem_of_list_In|done].
  - intros i h Hx. right. apply elem_of_list_In, in_concat in Hx as (b & Hb1 & Hb2).
    apply in_concat in Hb1 as (bs & Hbs & Hb1). apply elem_of_list_In, elem_of_list_lookup in Hbs as [n Hn].
    exists n, (inserter bs). change (map inserter bss) with (inserter <$> bss).
    rewrite list_lookup_fmap, Hn. split; [done|]. simpl. apply ASet_concat.
    apply elem_of_list_In, in_concat. by exists b.
Qed.

Lemma finished_owned ts : Forall (fun t => tPc t = Idle /\ tProg t = []) ts -> ownedAll ts = [].
Proof.
  induction ts as [|[p pr] ts IH]; intros F; [done|]. apply Forall_cons in F as [[E1 E2] F]; simpl in E1, E2; subst.
  unfold ownedAll in *. simpl. by rewrite IH.
Qed.

Lemma step_params g n : cParams (gTable (stepAt g n)) = cParams (gTable g).
Proof.
  unfold stepAt. destruct (gThreads g !! n) as [t|]; [|done]. unfold stepThread.
  destruct (tPc t); try done.
  - destruct (tProg t) as [|[i h|i] p]; try done. unfold setHash. by destruct (writeN _ _ _).
  - destruct (getHashOf _ _ _ _); [|done]. by destruct (swapAt _ _ _ _) as [[[? ?] ?]|].
  - destruct (_ =? _); [done|]. by destruct (readN _ _).
  - by destruct (swapAt _ _ _ _) as [[[? ?] ?]|].
Qed.

Lemma run_params sched : forall g, cParams (gTable (runSched g sched)) = cParams (gTable g).
Proof.
  induction sched as [|n sched IH]; intros g; [done|]. simpl.
  unfold runSched in IH. rewrite IH. apply step_params.
Qed.

Lemma cuckoo_concurrent_exclusive p lim c0 bss sched g :
  legalParams p -> init p (constructed lim) = Done c0 -> legalItems p (concat (concat bss)) ->
  exclusive (mkConfig c0 (map inserter bss)) sched ->
  runSched (mkConfig c0 (map inserter bss)) sched = g -> finished g ->
  (forall i, times (storedIndices (gTable g)) i =
     if decide (i ∈ (concat (concat bss)).*1) then 1%nat else 0%nat) /\
  (forall a w i j, cBins (gTable g) !! a = Some w -> entryOf w = Some (i, j) ->
     exists h, (i, h) ∈ concat (concat bss) /\ j < pNumHashes p /\ mapsTo (pNumBins p) h j (N.of_nat a)).
Proof.
  intros Lp Hi L Ex <- Fin. pose proof (initial_CInv p lim c0 bss Lp Hi L) as I0.
  pose proof (run_CInv sched _ _ I0 Ex) as I.
  pose proof (run_params sched (mkConfig c0 (map inserter bss))) as Hp. simpl in Hp.
  destruct (init_Inv p lim c0 (proj1 Lp) (proj2 Lp) Hi) as (_ & Hp0 & _). rewrite Hp0 in Hp.
  set (g := runSched _ _) in *. clearbody g.
  eapply Inv_spec; [|reflexivity|exact Hp].
  constructor.
    + apply (ci_wf _ _ I).
    + rewrite <- (ci_perm _ _ I), (finished_owned _ Fin). done.
    + apply (ci_nodup _ _ I).
    + intros i h Hin. split.
      * pose proof (ci_valid _ _ I) as V. rewrite Forall_forall in V. apply V.
        apply elem_of_list_fmap. by exists (i, h).
      * destruct (ci_hash _ _ I i h Hin) as [?|(n & t & Hn & Ht)]; [done|].
        apply elem_of_list_lookup_2 in Hn. unfold finished in Fin. rewrite Forall_forall in Fin.
        destruct (Fin _ Hn) as [_ E]. rewrite E in Ht. by apply elem_of_nil in Ht.
Qed.

(** Checking [exclusive] by computation. *)
Definition inStashb (t : thread) : bool := match tPc t with Scan _ _ _ | Put _ _ _ => true | _ => false end.
Fixpoint exclusiveb (g : config) (sched : list nat) : bool :=
  (length (List.filter inStashb (gThreads g)) <=? 1)%nat &&
  match sched with [] => true | n :: s => exclusiveb (stepAt g n) s end.

Lemma count_inStash ts n t : ts !! n = Some t -> inStash (tPc t) ->
  (1 <= length (List.filter inStashb ts))%nat.
Proof.
  revert n. induction ts as [|u ts IH]; intros [|n]; simpl; try done.
  - intros [= <-]. unfold inStashb. destruct (tPc u); simpl; try done; lia.
  - intros H1 H2. specialize (IH _ H1 H2). destruct (inStashb u); simpl; lia.
Qed.
Lemma oneInStashb ts : (length (List.filter inStashb ts) <= 1)%nat ->
  forall n m t u, ts !! n = Some t -> ts !! m = Some u -> inStash (tPc t) -> inStash (tPc u) -> n = m.
Proof.
  induction ts as [|v ts IH]; intros L [|n] [|m] t u; simpl; try done; simpl in L.
  - intros [= ->] H2 I1 I2. exfalso. pose proof (count_inStash _ _ _ H2 I2).
    unfold inStashb at 1 in L. destruct (tPc t); simpl in L; try done; lia.
  - intros H2 [= ->] I1 I2. exfalso. pose proof (count_inStash _ _ _ H2 I1).
    unfold inStashb at 1 in L. destruct (tPc u); simpl in L; try done; lia.
  - intros H1 H2 I1 I2. f_equal. eapply IH; eauto. destruct (inStashb v); simpl in L; lia.
Qed.
Lemma exclusiveb_ok sched : forall g, exclusiveb g sched = true -> exclusive g sched.
Proof.
  induction sched as [|n s IH]; intros g; simpl; intros [H1 H2]%andb_true_iff;
    apply Nat.leb_le in H1; (split; [|by auto]); intros a b t u; apply oneInStashb; done.
Qed.
