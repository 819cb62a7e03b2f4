(** Proofs about the measurement of stash sizes. *)
From Verif Require Import Base Measure_Model Measure_Spec.
Local Open Scope nat_scope.

Lemma sum_list_app (a b : list nat) : sum_list (a ++ b) = sum_list a + sum_list b.
Proof. induction a as [|x a IH]; [done|]. change (x + sum_list (a ++ b) = x + sum_list a + sum_list b). rewrite IH. lia. Qed.
Definition histo (W : nat) (l : list nat) : list nat := map (fun s => length (filter (fun x => x = s) l)) (seq 0 W).
Lemma histo_lookup W l s : s < W -> histo W l !! s = Some (length (filter (fun x => x = s) l)).
Proof. intros H. unfold histo. rewrite list_lookup_fmap, lookup_seq_lt by done. done. Qed.
Lemma histo_length W l : length (histo W l) = W.
Proof. unfold histo. by rewrite map_length, seq_length. Qed.
Lemma histo_snoc W l s : alter S s (histo W l) = histo W (l ++ [s]).
Proof.
  apply list_eq. intros i. destruct (decide (i < W)) as [Hi|Hi].
  - destruct (decide (s = i)) as [->|Hne].
    + rewrite list_lookup_alter, !histo_lookup by done. cbn. f_equal. rewrite filter_app, app_length. rewrite filter_cons_True by done. cbn. lia.
    + rewrite list_lookup_alter_ne, !histo_lookup by done. f_equal. rewrite filter_app, app_length, filter_cons_False by done. cbn. lia.
  - rewrite !lookup_ge_None_2; [done|rewrite histo_length; lia|rewrite alter_length, histo_length; lia].
Qed.
Lemma sum_alter_S l s : s < length l -> sum_list (alter S s l) = S (sum_list l).
Proof. revert s. induction l as [|a l IH]; intros [|s] H; cbn [length] in H; [lia|lia|done|]. cbn [alter list_alter sum_list_with id]. change (a + sum_list (alter S s l) = S (a + sum_list l)). rewrite IH by lia. lia. Qed.
Lemma sum_zeros W : sum_list (zeros W) = 0.
Proof. unfold zeros. induction W; cbn; auto. Qed.
Lemma histo_nil W : histo W [] = zeros W.
Proof. apply list_eq. intros i. destruct (decide (i < W)) as [Hi|Hi]; [rewrite histo_lookup by done; unfold zeros; by rewrite lookup_replicate_2|]. rewrite !lookup_ge_None_2; [done|unfold zeros; rewrite replicate_length; lia|rewrite histo_length; lia]. Qed.
Lemma histo_sum W l : Forall (fun s => s < W) l -> sum_list (histo W l) = length l.
Proof.
  induction l as [|s l IH] using rev_ind; [intros _; rewrite histo_nil; apply sum_zeros|]. intros [Hl Hs]%Forall_app. apply Forall_cons in Hs as [Hs _].
  rewrite <- histo_snoc, sum_alter_S by (by rewrite histo_length). rewrite IH by done. rewrite app_length. cbn. lia.
Qed.
Lemma sum_alter_add l s k : s < length l -> sum_list (alter (Nat.add k) s l) = k + sum_list l.
Proof. revert s. induction l as [|a l IH]; intros [|s] H; cbn [length] in H; [lia|lia|cbn; lia|]. change (a + sum_list (alter (Nat.add k) s l) = k + (a + sum_list l)). rewrite IH by lia. lia. Qed.

(** * Sums over the cells *)
Fixpoint cellsum (W : nat) (c : list (list nat)) (pos : nat) : nat := match pos with O => 0 | S k => cellsum W c k + cellAt W c k end.
Fixpoint colsum (W : nat) (c : list (list nat)) (s pos : nat) : nat := match pos with O => 0 | S k => colsum W c s k + (if k mod W =? s then cellAt W c k else 0) end.
Lemma cell_in W c T j : j < W -> cellAt W c (T * W + j) = nth j (nth T c []) 0.
Proof. intros H. unfold cellAt. rewrite Nat.add_comm, Nat.mod_add by lia. rewrite Nat.div_add by lia. rewrite (Nat.div_small j W), (Nat.mod_small j W) by lia. done. Qed.
Lemma col_row W c s T : 0 < W -> s < W -> forall j, j <= W -> colsum W c s (T * W + j) = colsum W c s (T * W) + (if s <? j then nth s (nth T c []) 0 else 0).
Proof.
  intros HW Hs. induction j as [|j IH]; intros Hj; [rewrite Nat.add_0_r; change (s <? 0) with false; cbv iota; by rewrite Nat.add_0_r|]. rewrite Nat.add_succ_r. cbn [colsum]. rewrite IH by lia. rewrite cell_in by lia.
  rewrite Nat.add_comm with (n := T * W) (m := j), Nat.mod_add, Nat.mod_small by lia. destruct (Nat.eqb_spec j s) as [->|Hne].
  - rewrite Nat.ltb_irrefl. replace (s <? S s) with true by (symmetry; apply Nat.ltb_lt; lia). cbv iota. lia.
  - destruct (Nat.ltb_spec s j), (Nat.ltb_spec s (S j)); try (exfalso; lia); cbv iota; rewrite ?Nat.add_0_r; done.
Qed.
Lemma col_all W c s T : 0 < W -> s < W -> colsum W c s (T * W) = sum_list (map (fun t => nth s (nth t c []) 0) (seq 0 T)).
Proof.
  intros HW Hs. induction T as [|T IH]; [done|]. rewrite seq_S, map_app, sum_list_app. rewrite <- IH. cbn [map sum_list_with id]. replace (S T * W) with (T * W + W) by lia. rewrite col_row by lia.
  replace (s <? W) with true by (symmetry; by apply Nat.ltb_lt). cbv iota. rewrite Nat.add_0_r. done.
Qed.
Lemma cellsum_row W c T : forall j, j <= W -> cellsum W c (T * W + j) = cellsum W c (T * W) + sum_list (map (fun i => nth i (nth T c []) 0) (seq 0 j)).
Proof. induction j as [|j IH]; intros Hj; [rewrite Nat.add_0_r; cbn; lia|]. rewrite Nat.add_succ_r. cbn [cellsum]. rewrite IH by lia. rewrite cell_in by lia. rewrite seq_S, map_app, sum_list_app. cbn. lia. Qed.
Lemma nth_all (r : list nat) : map (fun i => nth i r 0) (seq 0 (length r)) = r.
Proof. apply list_eq. intros i. rewrite list_lookup_fmap. destruct (decide (i < length r)) as [Hi|Hi]; [|rewrite (lookup_ge_None_2 r), (lookup_ge_None_2 (seq _ _)); [done|rewrite seq_length; lia|lia]]. rewrite lookup_seq_lt by done. cbn. destruct (lookup_lt_is_Some_2 r i Hi) as [x Hx]. by rewrite Hx, (nth_lookup_Some _ _ 0 _ Hx). Qed.
Lemma cellsum_all W c : Forall (fun r => length r = W) c -> cellsum W c (length c * W) = sum_list (map sum_list c).
Proof.
  induction c as [|r c IH] using rev_ind; [done|]. intros [Hc Hr]%Forall_app. apply Forall_cons in Hr as [Hr _]. rewrite app_length. cbn [length]. replace ((length c + 1) * W) with (length c * W + W) by lia.
  rewrite cellsum_row by done. rewrite app_nth2, Nat.sub_diag by lia. cbn [nth]. subst W. rewrite nth_all, map_app, sum_list_app. cbn [map sum_list_with id]. rewrite Nat.add_0_r. f_equal.
  rewrite <- IH by done. assert (forall k, k <= length c * length r -> cellsum (length r) (c ++ [r]) k = cellsum (length r) c k) as H; [|by apply H]. induction k as [|k IHk]; intros Hk; [done|]. cbn [cellsum]. rewrite IHk by lia. f_equal.
  unfold cellAt. rewrite app_nth1; [done|]. apply Nat.div_lt_upper_bound; lia.
Qed.
Lemma cellAt_mono W c t s k : cellAt W c k <= cellAt W (alter (alter S s) t c) k.
Proof.
  unfold cellAt. destruct (decide (k / W < length c)) as [Hk|Hk]; [|rewrite !(nth_overflow _ []) by (rewrite ?alter_length; lia); lia].
  destruct (lookup_lt_is_Some_2 c (k / W) Hk) as [r Hr]. rewrite (nth_lookup_Some _ _ [] _ Hr). destruct (decide (t = k / W)) as [->|Hne].
  - erewrite (nth_lookup_Some (alter _ _ _) _ []); [|by rewrite list_lookup_alter, Hr]. destruct (decide (k mod W < length r)) as [Hm|Hm]; [|rewrite !nth_overflow by (rewrite ?alter_length; lia); lia].
    destruct (lookup_lt_is_Some_2 r (k mod W) Hm) as [x Hx]. rewrite (nth_lookup_Some _ _ 0 _ Hx). destruct (decide (s = k mod W)) as [->|Hs].
    + erewrite (nth_lookup_Some (alter _ _ _)); [|by rewrite list_lookup_alter, Hx]. lia.
    + erewrite (nth_lookup_Some (alter _ _ _)); [|by rewrite list_lookup_alter_ne, Hx]. lia.
  - erewrite (nth_lookup_Some (alter _ _ _) _ []); [|by rewrite list_lookup_alter_ne, Hr]. lia.
Qed.
Lemma cellsum_mono W c t s pos : cellsum W c pos <= cellsum W (alter (alter S s) t c) pos.
Proof. induction pos as [|k IH]; [done|]. cbn [cellsum]. pose proof (cellAt_mono W c t s k). lia. Qed.

(** * The invariant *)
Section inv.
Context (W : nat) (HW : 0 < W) (trials : list (list (option nat))) (Hfit : fitsColumns W trials).
Let T := length trials.
Let total := length (concat trials).
Definition work (td : list (list (option nat))) (c : list (list nat)) : Prop :=
  length td = T /\ length c = T /\ forall t l, trials !! t = Some l -> exists d r, td !! t = Some r /\ l = map Some d ++ r /\ c !! t = Some (histo W d).
Definition allDone (td : list (list (option nat))) : Prop := Forall (fun l => l = []) td.
Definition exactTo (c : list (list nat)) (pos : nat) (acc : list nat) : Prop := length acc = W /\ forall s, s < W -> acc !! s = Some (colsum W c s pos).
Definition Inv (st : mstate) : Prop := work (todo st) (counts st) /\
  match phase st with
  | Watch pos acc => length acc = W /\ pos <= T * W /\ sum_list acc <= cellsum W (counts st) pos
  | Final pos acc => allDone (todo st) /\ pos <= T * W /\ exactTo (counts st) pos acc
  | Printed acc => allDone (todo st) /\ exactTo (counts st) (T * W) acc
  end.
Lemma work_rows td c : work td c -> Forall (fun r => length r = W) c.
Proof.
  intros (_ & Hc & Hw). apply Forall_lookup. intros t r Hr. destruct (lookup_lt_is_Some_2 trials t) as [l Hl]; [fold T; apply lookup_lt_Some in Hr; lia|].
  destruct (Hw t l Hl) as (d & r' & _ & _ & E). rewrite E in Hr. injection Hr as <-. apply histo_length.
Qed.
Lemma fits_row t l : trials !! t = Some l -> Forall (fun x => exists s, x = Some s /\ s < W) l.
Proof. intros Hl. apply Forall_forall. intros x Hx. apply Hfit. apply elem_of_concat. exists l. split; [done|by eapply elem_of_list_lookup_2]. Qed.
(** What has been counted, and what is still to be done, is everything. *)
Lemma work_total td c : work td c -> sum_list (map sum_list c) + length (concat td) = total.
Proof.
  intros (Htd & Hc & Hw). unfold total. clear total. subst T. revert td c Htd Hc Hw.
  assert (forall tr : list (list (option nat)), (forall t l, tr !! t = Some l -> Forall (fun x => exists s, x = Some s /\ s < W) l) -> forall td c, length td = length tr -> length c = length tr ->
    (forall t l, tr !! t = Some l -> exists d r, td !! t = Some r /\ l = map Some d ++ r /\ c !! t = Some (histo W d)) -> sum_list (map sum_list c) + length (concat td) = length (concat tr)) as H; [|intros td c H1 H2 H3; apply (H trials fits_row td c H1 H2 H3)].
  clear. induction tr as [|l tr IH]; intros Hf td c Htd Hc Hw.
  - destruct td, c; try done.
  - destruct td as [|r td], c as [|h c]; try done. cbn [length] in Htd, Hc. destruct (Hw 0 l eq_refl) as (d & r' & E1 & E2 & E3). cbn in E1, E3. injection E1 as <-. injection E3 as ->.
    cbn [map sum_list concat]. rewrite !app_length. rewrite <- (IH ltac:(intros t; apply (Hf (S t))) td c ltac:(lia) ltac:(lia) ltac:(intros t; apply (Hw (S t)))).
    change (id (sum_list (histo W d))) with (sum_list (histo W d)). rewrite histo_sum; [rewrite E2, app_length, map_length; lia|]. pose proof (Hf 0 l eq_refl) as Hl. rewrite E2 in Hl. apply Forall_app in Hl as [Hl _]. rewrite Forall_map in Hl. eapply Forall_impl; [exact Hl|]. intros s (s' & E & Hs). cbn in E. by injection E as <-.
Qed.
Lemma inv_start : Inv (mstart W trials).
Proof.
  clear. unfold Inv, mstart. cbn [todo counts phase]. split.
  - split; [done|]. split; [apply map_length|]. intros t l Hl. exists [], l. split; [done|]. split; [done|]. rewrite list_lookup_fmap, Hl. cbn. by rewrite histo_nil.
  - split; [apply replicate_length|]. split; [lia|]. by rewrite sum_zeros.
Qed.
Lemma read_exact c pos acc : pos < T * W -> exactTo c pos acc -> exactTo c (S pos) (readCell W c pos acc).
Proof.
  intros Hp [Hl Ha]. split; [unfold readCell; by rewrite alter_length|]. intros s Hs. unfold readCell. cbn [colsum]. destruct (Nat.eqb_spec (pos mod W) s) as [<-|Hne].
  - rewrite list_lookup_alter, Ha by done. cbn. f_equal. lia.
  - rewrite list_lookup_alter_ne by done. rewrite Ha by done. f_equal. lia.
Qed.
Lemma inv_main st m : Inv st -> mainStep W T total (counts st) (phase st) = Some m -> Inv (mkM (todo st) (counts st) m).
Proof.
  intros [Hw Hp] E. split; [done|]. cbn [todo counts phase]. destruct (phase st) as [pos acc|pos acc|acc]; cbn [mainStep] in E; [| |done].
  - destruct Hp as (Hl & Hpos & Hsum). destruct (Nat.ltb_spec pos (T * W)) as [Hlt|Hge].
    + injection E as <-. split; [unfold readCell; by rewrite alter_length|]. split; [lia|]. unfold readCell. rewrite sum_alter_add by (rewrite Hl; apply Nat.mod_upper_bound; lia). cbn [cellsum]. lia.
    + assert (pos = T * W) as -> by lia. destruct (Nat.eqb_spec (sum_list acc) total) as [Et|Hne]; injection E as <-.
      * split.
        -- pose proof (work_total _ _ Hw) as Ht. destruct Hw as (H1 & H2 & H3). rewrite <- H2 in Hsum. rewrite cellsum_all in Hsum by (by eapply work_rows). rewrite Et in Hsum.
           assert (length (concat (todo st)) = 0) as H0 by lia. apply nil_length_inv in H0. apply Forall_forall. intros l Hin. apply nil_length_inv. destruct l as [|x l]; [done|]. exfalso.
           assert (x ∈ concat (todo st)) as Hx by (apply elem_of_concat; exists (x :: l); split; [left|done]). rewrite H0 in Hx. by apply elem_of_nil in Hx.
        -- split; [lia|]. split; [apply replicate_length|]. intros s Hs. unfold zeros. by rewrite lookup_replicate_2.
      * split; [apply replicate_length|]. split; [lia|]. by rewrite sum_zeros.
  - destruct Hp as (Hd & Hpos & Hex). destruct (Nat.ltb_spec pos (T * W)) as [Hlt|Hge]; injection E as <-.
    + split; [done|]. split; [lia|]. by apply read_exact.
    + assert (pos = T * W) as -> by lia. done.
Qed.
Lemma inv_work st t st' : Inv st -> workStep W st t = Done st' -> Inv st'.
Proof.
  intros [Hw Hp] E. unfold workStep in E. destruct (todo st !! t) as [[|[s|] l]|] eqn:Et; [done| |done|done]. destruct (Nat.ltb_spec s W) as [Hs|]; [|done]. injection E as <-.
  split; cbn [todo counts phase].
  - destruct Hw as (H1 & H2 & H3). split; [by rewrite insert_length|]. split; [by rewrite alter_length|]. intros t' l' Hl. destruct (H3 t' l' Hl) as (d & r & E1 & E2 & E3). destruct (decide (t = t')) as [<-|Hne].
    + rewrite Et in E1. injection E1 as <-. exists (d ++ [s]), l. split; [by apply list_lookup_insert, lookup_lt_Some in Et || (apply list_lookup_insert; by apply lookup_lt_Some in Et)|]. split; [by rewrite map_app, <- app_assoc|].
      rewrite list_lookup_alter, E3. cbn. by rewrite histo_snoc.
    + exists d, r. rewrite list_lookup_insert_ne, list_lookup_alter_ne by done. done.
  - assert (allDone (todo st) -> False) as Hno. { intros Hd. unfold allDone in Hd. rewrite Forall_lookup in Hd. specialize (Hd t _ Et). done. }
    destruct (phase st) as [pos acc|pos acc|acc]; [|by destruct Hp as [Hd _]; destruct (Hno Hd)|by destruct Hp as [Hd _]; destruct (Hno Hd)].
    destruct Hp as (Hl & Hpos & Hsum). split; [done|]. split; [done|]. pose proof (cellsum_mono W (counts st) t s pos). lia.
Qed.
Lemma inv_run tr : forall st st', Inv st -> mrun W T total st tr = Done st' -> Inv st'.
Proof.
  induction tr as [|[t|] tr IH]; intros st st' HI E; cbn [mrun] in E; [by injection E as <-| |].
  - destruct (workStep W st t) as [st1| | |] eqn:E1; try done. eapply IH; [|exact E]. by eapply inv_work.
  - destruct (mainStep _ _ _ _ _) as [m|] eqn:E1; [|done]. eapply IH; [|exact E]. by apply inv_main.
Qed.
Lemma filter_some (d : list nat) s : length (filter (fun x => x = Some s) (map Some d)) = length (filter (fun x => x = s) d).
Proof.
  clear. induction d as [|a d IH]; [done|]. cbn [map]. destruct (decide (a = s)) as [->|Hne]; [rewrite !filter_cons_True by done; cbn [length]; lia|].
  rewrite !filter_cons_False; [done|done|congruence].
Qed.
Lemma done_columns td c s : s < W -> work td c -> allDone td -> sum_list (map (fun t => nth s (nth t c []) 0) (seq 0 T)) = trialsWith trials s.
Proof.
  intros Hs (H1 & H2 & H3) Hd. unfold trialsWith. subst T. assert (forall tr, (forall t l, tr !! t = Some l -> exists r, c !! t = Some r /\ nth s r 0 = length (filter (fun x => x = Some s) l)) ->
    sum_list (map (fun t => nth s (nth t c []) 0) (seq 0 (length tr))) = length (filter (fun x => x = Some s) (concat tr))) as H.
  { clear -c. induction tr as [|l tr IH] using rev_ind; intros Hr; [done|]. rewrite app_length. cbn [length]. rewrite Nat.add_1_r, seq_S, map_app, sum_list_app, concat_app, filter_app, app_length. rewrite <- IH.
    - cbn [map sum_list concat Nat.add]. rewrite app_nil_r. destruct (Hr (length tr) l) as (r & Er & E); [rewrite lookup_app_r, Nat.sub_diag by lia; done|]. rewrite (nth_lookup_Some _ _ [] _ Er), E. unfold id. lia.
    - intros t l' Hl. apply Hr. by apply lookup_app_l_Some. }
  apply H. intros t l Hl. destruct (H3 t l Hl) as (d & r & E1 & E2 & E3). exists (histo W d). split; [done|]. rewrite (nth_lookup_Some _ _ 0 _ (histo_lookup W d s Hs)).
  unfold allDone in Hd. rewrite Forall_lookup in Hd. rewrite (Hd t r E1), app_nil_r in E2. by rewrite E2, filter_some.
Qed.
Lemma printed_exact tr st acc : mrun W T total (mstart W trials) tr = Done st -> prints st acc -> allDone (todo st) /\ length acc = W /\ forall s, s < W -> acc !! s = Some (trialsWith trials s).
Proof.
  intros E Hp. destruct (inv_run tr _ _ inv_start E) as [Hw HI]. rewrite Hp in HI. destruct HI as (Hd & Hl & Hx). split; [done|]. split; [done|]. intros s Hs. rewrite Hx by done. f_equal.
  rewrite col_all by done. by eapply done_columns.
Qed.

(** * The main thread ends once the others have *)
Lemma pass_watch td c k : forall pos acc, pos + k = T * W -> exists acc', mrun W T total (mkM td c (Watch pos acc)) (replicate k None) = Done (mkM td c (Watch (T * W) acc')) /\
  (length acc = W -> length acc' = W /\ sum_list acc' + cellsum W c pos = sum_list acc + cellsum W c (T * W)).
Proof.
  clear Hfit. induction k as [|k IH]; intros pos acc Hk; [exists acc; replace (T * W) with pos by lia; by split|]. cbn [replicate mrun mainStep counts phase]. replace (pos <? T * W) with true by (symmetry; apply Nat.ltb_lt; lia).
  destruct (IH (S pos) (readCell W c pos acc)) as (acc' & E & Hs); [lia|]. exists acc'. split; [exact E|]. intros Hl. destruct Hs as [Hl' Hs]; [unfold readCell; by rewrite alter_length|]. split; [done|].
  unfold readCell in Hs. rewrite sum_alter_add in Hs by (rewrite Hl; apply Nat.mod_upper_bound; lia). cbn [cellsum] in Hs. lia.
Qed.
Lemma pass_final td c k : forall pos acc, pos + k = T * W -> exists acc', mrun W T total (mkM td c (Final pos acc)) (replicate k None) = Done (mkM td c (Final (T * W) acc')).
Proof.
  clear. induction k as [|k IH]; intros pos acc Hk; [exists acc; by replace (T * W) with pos by lia|]. cbn [replicate mrun mainStep counts phase]. replace (pos <? T * W) with true by (symmetry; apply Nat.ltb_lt; lia).
  apply IH. lia.
Qed.
Lemma mrun_app a b : forall st st', mrun W T total st a = Done st' -> mrun W T total st (a ++ b) = mrun W T total st' b.
Proof.
  clear. induction a as [|[t|] a IH]; intros st st' E; cbn [app mrun] in E |- *; [by injection E as <-| |].
  - destruct (workStep W st t); try done. by apply IH.
  - destruct (mainStep _ _ _ _ _); [|done]. by apply IH.
Qed.
Lemma full_pass td c acc : work td c -> allDone td -> length acc = W -> sum_list acc = 0 -> exists st' acc', mrun W T total (mkM td c (Watch 0 acc)) (replicate (2 * (T * W) + 2) None) = Done st' /\ phase st' = Printed acc'.
Proof.
  intros Hw Hd Hl H0. destruct (pass_watch td c (T * W) 0 acc) as (a1 & E1 & Hs); [lia|]. destruct (Hs Hl) as [_ Hsum]. cbn [cellsum] in Hsum.
  pose proof (work_total _ _ Hw) as Ht. assert (concat td = []) as Hn. { clear -Hd. induction Hd as [|l td -> Hd IH]; [done|]. cbn. exact IH. } rewrite Hn in Ht. cbn [length] in Ht.
  assert (cellsum W c (T * W) = total) as Hc. { destruct Hw as (H1 & H2 & H3). rewrite <- H2, cellsum_all by (by eapply work_rows). lia. }
  destruct (pass_final td c (T * W) 0 (zeros W)) as (a2 & E2); [lia|]. exists (mkM td c (Printed a2)), a2. split; [|done].
  replace (2 * (T * W) + 2) with (T * W + (1 + (T * W + 1))) by lia. rewrite !replicate_add. rewrite (mrun_app _ _ _ _ E1). cbn [replicate app mrun mainStep counts phase todo]. rewrite Nat.ltb_irrefl.
  replace (sum_list a1 =? total) with true by (symmetry; apply Nat.eqb_eq; lia). rewrite (mrun_app _ _ _ _ E2). cbn [mrun mainStep counts phase todo]. by rewrite Nat.ltb_irrefl.
Qed.
Lemma ends tr st : mrun W T total (mstart W trials) tr = Done st -> allDone (todo st) -> exists k st' acc, k <= 3 * (T * W) + 3 /\ mrun W T total st (replicate k None) = Done st' /\ prints st' acc.
Proof.
  intros E Hd. destruct (inv_run tr _ _ inv_start E) as [Hw HI]. destruct st as [td c m]. cbn [todo counts phase] in *. destruct m as [pos acc|pos acc|acc].
  - destruct HI as (Hl & Hp & Hsum). destruct (pass_watch td c (T * W - pos) pos acc) as (a1 & E1 & Hs); [lia|]. destruct (Nat.eq_dec (sum_list a1) total) as [Et|Hne].
    + destruct (pass_final td c (T * W) 0 (zeros W)) as (a2 & E2); [lia|]. exists (T * W - pos + (1 + (T * W + 1))), (mkM td c (Printed a2)), a2. split; [lia|]. split; [|done].
      rewrite !replicate_add. rewrite (mrun_app _ _ _ _ E1). cbn [replicate app mrun mainStep counts phase todo]. rewrite Nat.ltb_irrefl. replace (sum_list a1 =? total) with true by (symmetry; by apply Nat.eqb_eq).
      rewrite (mrun_app _ _ _ _ E2). cbn [mrun mainStep counts phase todo]. by rewrite Nat.ltb_irrefl.
    + destruct (full_pass td c (zeros W) Hw Hd) as (st' & a' & E' & Hp'); [apply replicate_length|apply sum_zeros|]. exists (T * W - pos + (1 + (2 * (T * W) + 2))), st', a'. split; [lia|]. split; [|done].
      rewrite (replicate_add (T * W - pos)), (replicate_add 1). rewrite (mrun_app _ _ _ _ E1). cbn [replicate app mrun mainStep counts phase todo]. rewrite Nat.ltb_irrefl. replace (sum_list a1 =? total) with false by (symmetry; by apply Nat.eqb_neq).
      exact E'.
  - destruct HI as (_ & Hp & _). destruct (pass_final td c (T * W - pos) pos acc) as (a2 & E2); [lia|]. exists (T * W - pos + 1), (mkM td c (Printed a2)), a2. split; [lia|]. split; [|done].
    rewrite replicate_add, (mrun_app _ _ _ _ E2). cbn [replicate mrun mainStep counts phase todo]. by rewrite Nat.ltb_irrefl.
  - exists 0, (mkM td c (Printed acc)), acc. split; [lia|]. done.
Qed.
(** No schedule meets undefined behaviour. *)
Lemma no_ub tr : forall st, Inv st -> mrun W T total st tr <> UB.
Proof.
  induction tr as [|[t|] tr IH]; intros st HI; cbn [mrun]; [done| |].
  - destruct (workStep W st t) as [st1| | |] eqn:E1; try done; [apply IH; by eapply inv_work|]. exfalso. unfold workStep in E1. destruct (todo st !! t) as [[|x l]|] eqn:Et; [done| |done].
    destruct HI as [(H1 & H2 & H3) _]. destruct (lookup_lt_is_Some_2 trials t) as [l0 Hl0]; [fold T; apply lookup_lt_Some in Et; lia|]. destruct (H3 t l0 Hl0) as (d & r & E2 & E3 & _). rewrite Et in E2. injection E2 as <-.
    pose proof (fits_row t l0 Hl0) as Hf. rewrite E3 in Hf. apply Forall_app in Hf as [_ Hf]. apply Forall_cons in Hf as [(s & -> & Hs) _]. apply Nat.ltb_lt in Hs. by rewrite Hs in E1.
  - destruct (mainStep _ _ _ _ _) as [m|] eqn:E1; [|done]. apply IH. by apply inv_main.
Qed.
End inv.
