(** All schedules of the multi-threaded protocols complete. *)
From stdpp Require Import sorting sets.
From Verif Require Import Base Partition_Model Sched_Model Sched_Spec Sched_Proofs Sched_Proofs2 Threads_Model.

(** ** Phases *)

Definition seg (p : nat) (l : list ev) : nat * list (rank * ev) := (p, map (pair (p, 0%nat)) l).
Definition flat (ps : list (nat * list (rank * ev))) : list (rank * ev) := concat (map snd ps).
(** A block: all ranks in phase [p], sorted. *)
Definition block (b : nat * list (rank * ev)) : Prop := StronglySorted rle (map fst b.2) /\ Forall (fun e : rank * ev => e.1.1 = b.1) b.2.
Lemma seg_block p l : block (seg p l).
Proof.
  split; cbn.
  - induction l as [|e l IH]; cbn; constructor; [done|]. apply Forall_fmap, Forall_fmap, Forall_true. intros. by right.
  - apply Forall_fmap, Forall_true. done.
Qed.
Lemma sorted_app (l1 l2 : list rank) : StronglySorted rle l1 -> StronglySorted rle l2 -> (forall x y, x ∈ l1 -> y ∈ l2 -> rle x y) -> StronglySorted rle (l1 ++ l2).
Proof.
  induction 1 as [|x l1 _ IH Hx]; intros H2 H; [done|]. cbn. constructor.
  - apply IH; [done|]. intros a b Ha Hb. apply H; [by right|done].
  - apply Forall_app. split; [done|]. apply Forall_forall. intros y Hy. apply H; [by left|done].
Qed.
Fixpoint increasing (l : list nat) : bool := match l with a :: (b :: _) as l' => (a <? b)%nat && increasing l' | _ => true end.
Lemma increasing_head a l : increasing (a :: l) = true -> Forall (fun b => (a < b)%nat) l.
Proof.
  revert a. induction l as [|b l IH]; intros a H; constructor.
  - apply andb_prop in H as [H _]. by apply Nat.ltb_lt.
  - apply andb_prop in H as [H H']. apply Nat.ltb_lt in H. eapply Forall_impl; [by apply IH|]. cbn. lia.
Qed.
Lemma increasing_tail a l : increasing (a :: l) = true -> increasing l = true.
Proof. destruct l as [|b l]; [done|]. intros H. by apply andb_prop in H as [_ H]. Qed.
Lemma flat_sorted ps : increasing (map fst ps) = true -> Forall block ps -> StronglySorted rle (map fst (flat ps)).
Proof.
  induction ps as [|[p l] ps IH]; intros Hi Hb; [constructor|]. inversion Hb as [|? ? [Hs Hp] Hb']; subst. unfold flat. cbn [map concat snd]. rewrite map_app.
  apply sorted_app; [done|apply IH; [by eapply increasing_tail|done]|].
  intros x y Hx Hy. apply elem_of_list_fmap in Hx as ([x' e] & -> & Hx). apply elem_of_list_fmap in Hy as ([y' f] & -> & Hy). cbn.
  rewrite Forall_forall in Hp. specialize (Hp _ Hx). cbn in Hp.
  apply elem_of_list_In, in_concat in Hy as (l' & Hl' & Hy). apply in_map_iff in Hl' as ([p' l''] & <- & Hl').
  pose proof (increasing_head _ _ Hi) as Hlt. rewrite Forall_forall in Hlt. specialize (Hlt p').
  assert (p < p')%nat by (apply Hlt; apply elem_of_list_fmap; exists (p', l''); split; [done|by apply elem_of_list_In]).
  rewrite Forall_forall in Hb'. destruct (Hb' (p', l'') ltac:(by apply elem_of_list_In)) as [_ Hp']. rewrite Forall_forall in Hp'.
  specialize (Hp' (y', f) ltac:(by apply elem_of_list_In)). cbn in Hp', Hp. left. left. lia.
Qed.
Lemma flat_elem e ps : e ∈ flat ps -> exists p l, (p, l) ∈ ps /\ e ∈ l.
Proof.
  intros H. apply elem_of_list_In, in_concat in H as (l & Hl & H). apply in_map_iff in Hl as ([p l'] & <- & Hl).
  exists p, l'. split; by apply elem_of_list_In.
Qed.
Lemma flat_evs ps : evs (flat ps) = concat (map (fun b => evs b.2) ps).
Proof. induction ps as [|[p l] ps IH]; [done|]. unfold flat, evs in *. cbn. rewrite map_app. f_equal. exact IH. Qed.
Lemma flat_rsends q ps : rsends q (flat ps) = concat (map (fun b => rsends q b.2) ps).
Proof. induction ps as [|[p l] ps IH]; [done|]. unfold flat in *. cbn [map concat snd]. rewrite rsends_app. f_equal. exact IH. Qed.
Lemma seg_evs p l : evs (seg p l).2 = l.
Proof. unfold evs, seg. cbn. rewrite map_map. apply map_id. Qed.
Lemma seg_rsends q p l : rsends q (seg p l).2 = map (pair (p, 0%nat)) (sendsOf q l).
Proof.
  unfold rsends, sendsOf, seg. cbn. induction l as [|e l IH]; [done|]. cbn. destruct e as [q' k| | |]; cbn; try exact IH.
  destruct (decide (q' = q)); cbn; [|exact IH]. f_equal. exact IH.
Qed.
Lemma seg_elem p l r e : (r, e) ∈ (seg p l).2 -> r = (p, 0%nat) /\ e ∈ l.
Proof. intros H. apply elem_of_list_fmap in H as (e' & [= -> ->] & H). done. Qed.

(** ** Sends in scripts *)

Lemma sendsOf_app q l1 l2 : sendsOf q (l1 ++ l2) = sendsOf q l1 ++ sendsOf q l2.
Proof. apply omap_app. Qed.
Lemma sendsOf_sends q q' ks : sendsOf q (sends q' ks) = if decide (q' = q) then ks else [].
Proof.
  unfold sendsOf, sends. destruct (decide (q' = q)) as [->|Hne]; induction ks as [|k ks IH]; cbn; [done| |done|].
  - rewrite decide_True by done. f_equal. exact IH.
  - rewrite decide_False by done. exact IH.
Qed.
Lemma sendsOf_gets q q' j ks : sendsOf q (gets q' j ks) = [].
Proof.
  unfold sendsOf, gets. revert j. induction ks as [|k ks IH]; intros j; [done|]. rewrite imap_cons. cbn.
  rewrite <- (IH (S j)). f_equal. apply imap_ext. intros i x _. cbn. f_equal. lia.
Qed.
Lemma sends_elem e q ks : e ∈ sends q ks -> exists k, e = Snd q k.
Proof. intros H. apply elem_of_list_fmap in H as (k & -> & _). eauto. Qed.
Lemma gets_elem e q j ks : e ∈ gets q j ks -> exists x k, e = Get q (j + x) k /\ ks !! x = Some k.
Proof. intros H. apply elem_of_lookup_imap_1 in H as (x & k & -> & H). eauto. Qed.

(** ** Conversations *)

Fixpoint talkR (me : bool) (c j p i : nat) (m : list (bool * N)) : list (rank * ev) :=
  match m with
  | [] => []
  | (d, k) :: m' => if Bool.eqb d me then ((p, (2 * i)%nat), Snd (Chan c d) k) :: talkR me c j p (S i) m'
                    else ((p, S (2 * i)), Get (Chan c d) j k) :: talkR me c (S j) p (S i) m'
  end.
(** The messages of direction [d] with the ranks of their sends. *)
Fixpoint said (d : bool) (p i : nat) (m : list (bool * N)) : list (rank * N) :=
  match m with
  | [] => []
  | (d', k) :: m' => if Bool.eqb d' d then ((p, (2 * i)%nat), k) :: said d p (S i) m' else said d p (S i) m'
  end.
Lemma talkR_evs me c j p i m : evs (talkR me c j p i m) = talk me c j m.
Proof. revert j i. induction m as [|[d k] m IH]; intros j i; [done|]. cbn. destruct (Bool.eqb d me); cbn; f_equal; apply IH. Qed.
Lemma talkR_sends q me c j p i m : rsends q (talkR me c j p i m) = if decide (q = Chan c me) then said me p i m else [].
Proof.
  revert j i. induction m as [|[d k] m IH]; intros j i; cbn; [by destruct (decide _)|]. destruct (Bool.eqb d me) eqn:E.
  - apply Bool.eqb_prop in E as ->. unfold rsends in *. cbn. specialize (IH j (S i)). destruct (decide (q = Chan c me)) as [->|Hne].
    + rewrite decide_True by done. f_equal. exact IH.
    + rewrite decide_False by done. exact IH.
  - unfold rsends in *. cbn. apply IH.
Qed.
Lemma talkR_get me c j0 p i m r q j k : (r, Get q j k) ∈ talkR me c j0 p i m ->
  q = Chan c (negb me) /\ exists x r', said (negb me) p i m !! x = Some (r', k) /\ j = (j0 + x)%nat /\ rlt r' r.
Proof.
  revert j0 i. induction m as [|[d k'] m IH]; intros j0 i H; [by apply elem_of_nil in H|]. cbn in H. destruct (Bool.eqb d me) eqn:E.
  - apply elem_of_cons in H as [H|H]; [done|]. apply IH in H as (-> & x & r' & H & -> & Hlt). split; [done|]. exists x, r'. cbn.
    apply Bool.eqb_prop in E as ->. by destruct me.
  - assert (d = negb me) as -> by (by destruct d, me). apply elem_of_cons in H as [[= -> -> -> ->]|H].
    + split; [done|]. exists 0%nat, (p, (2 * i)%nat). cbn. rewrite Bool.eqb_reflx. split; [done|]. split; [lia|]. right. cbn. lia.
    + apply IH in H as (-> & x & r' & H & -> & Hlt). split; [done|]. exists (S x), r'. cbn. rewrite Bool.eqb_reflx. cbn. split; [done|]. split; [lia|done].
Qed.
Lemma talkR_wait me c j0 p i m r q n : (r, Wai q n) ∈ talkR me c j0 p i m -> False.
Proof.
  revert j0 i. induction m as [|[d k'] m IH]; intros j0 i H; [by apply elem_of_nil in H|]. cbn in H.
  destruct (Bool.eqb d me); apply elem_of_cons in H as [H|H]; try done; by apply IH in H.
Qed.
Lemma talkR_block me c j p m : block (p, talkR me c j p 0 m).
Proof.
  split; cbn.
  - assert (forall i, StronglySorted rle (map fst (talkR me c j p i m)) /\ Forall (fun r : rank => r.1 = p /\ (2 * i <= r.2)%nat) (map fst (talkR me c j p i m))) as H; [|apply H].
    revert j. induction m as [|[d k] m IH]; intros j i; [split; constructor|]. cbn [talkR]. destruct (Bool.eqb d me); cbn [map fst].
    + destruct (IH j (S i)) as [Hs Hf]. split; constructor; [done| |cbn; lia|]; (eapply Forall_impl; [exact Hf|]); intros [r1 r2] [? ?]; cbn in *; [left; right; cbn; lia|lia].
    + destruct (IH (S j) (S i)) as [Hs Hf]. split; constructor; [done| |cbn; lia|]; (eapply Forall_impl; [exact Hf|]); intros [r1 r2] [? ?]; cbn in *; [left; right; cbn; lia|lia].
  - generalize 0%nat. revert j. induction m as [|[d k] m IH]; intros j i; [constructor|]. cbn [talkR]. destruct (Bool.eqb d me); constructor; done || apply IH.
Qed.
Lemma said_heard d p i m : length (said d p i m) = heard (negb d) m.
Proof.
  revert i. induction m as [|[d' k] m IH]; intros i; [done|]. unfold heard. cbn. destruct d', d; cbn; try (f_equal; apply IH); apply IH.
Qed.

(** ** Systems of thread pairs *)

Lemma before_app r l1 l2 : before r (l1 ++ l2) = before r l1 ++ before r l2.
Proof. apply filter_app. Qed.
Lemma many r q (h : nat -> list (rank * ev)) s n : (forall t, (s <= t < s + n)%nat -> (1 <= length (before r (rsends q (h t))))%nat) ->
  (n <= length (before r (concat (map (rsends q) (map h (seq s n))))))%nat.
Proof.
  revert s. induction n as [|n IH]; intros s H; [lia|]. cbn [seq map concat]. rewrite before_app, app_length.
  specialize (IH (S s) ltac:(intros; apply H; lia)). specialize (H s ltac:(lia)). lia.
Qed.
Section system.
Variables (T : nat) (f g : nat -> list (rank * ev)) (x : list (list (rank * ev))).
Definition all : list (list (rank * ev)) := map f (seq 0 T) ++ map g (seq 0 T) ++ x.
Definition arrived (r : rank) (q : queue) : nat := length (before r (concat (map (rsends q) all))).
(** Enough arrivals. *)
Lemma arrived_split r q : arrived r q = (length (before r (concat (map (rsends q) (map f (seq 0 T))))) +
  (length (before r (concat (map (rsends q) (map g (seq 0 T))))) + length (before r (concat (map (rsends q) x)))))%nat.
Proof. unfold arrived, all. rewrite !map_app, !concat_app, !before_app, !app_length. lia. Qed.
End system.

Section pairs.
Variables (T : nat) (f g : nat -> list (rank * ev)) (x : list (list (rank * ev))) (mS mR : nat -> list (rank * N)).
Local Notation all := (all T f g x).
Local Notation arrived := (arrived T f g x).
Hypothesis sorted_f : forall t, StronglySorted rle (map fst (f t)).
Hypothesis sorted_g : forall t, StronglySorted rle (map fst (g t)).
Hypothesis sorted_x : Forall (fun l => StronglySorted rle (map fst l)) x.
Hypothesis f_sends : forall t v d, rsends (Chan v d) (f t) = if (d && (t =? v)%nat)%bool then mS t else [].
Hypothesis g_sends : forall t v d, rsends (Chan v d) (g t) = if (negb d && (t =? v)%nat)%bool then mR t else [].
Hypothesis x_sends : Forall (fun l => forall v d, rsends (Chan v d) l = []) x.
Definition met (r : rank) (q : queue) (j : nat) (k : N) : Prop :=
  exists t d r', (t < T)%nat /\ q = Chan t d /\ (if d then mS t else mR t) !! j = Some (r', k) /\ rlt r' r.
Hypothesis f_get : forall t r q j k, (t < T)%nat -> (r, Get q j k) ∈ f t -> met r q j k.
Hypothesis g_get : forall t r q j k, (t < T)%nat -> (r, Get q j k) ∈ g t -> met r q j k.
Hypothesis x_get : Forall (fun l => forall r q j k, (r, Get q j k) ∈ l -> met r q j k) x.
Hypothesis f_wait : forall t r q n, (t < T)%nat -> (r, Wai q n) ∈ f t -> (n <= arrived r q)%nat.
Hypothesis g_wait : forall t r q n, (t < T)%nat -> (r, Wai q n) ∈ g t -> (n <= arrived r q)%nat.
Hypothesis x_wait : Forall (fun l => forall r q n, (r, Wai q n) ∈ l -> (n <= arrived r q)%nat) x.

Lemma all_lookup i l : all !! i = Some l ->
  (i < T)%nat /\ l = f i \/ (exists t, (t < T)%nat /\ i = (T + t)%nat /\ l = g t) \/ ((T + T <= i)%nat /\ l ∈ x).
Proof.
  unfold all. intros H. apply lookup_app_Some in H as [H|[Hge H]].
  - left. apply list_lookup_fmap_inv in H as (t & -> & H). apply lookup_seq in H as [-> H]. done.
  - rewrite map_length, seq_length in Hge, H. apply lookup_app_Some in H as [H|[Hge2 H]].
    + right; left. apply list_lookup_fmap_inv in H as (t & -> & H). apply lookup_seq in H as [-> H]. exists (0 + (i - T))%nat. split_and!; [lia|lia|done].
    + right; right. rewrite map_length, seq_length in Hge2. split; [lia|]. by eapply elem_of_list_lookup_2.
Qed.
Lemma all_f t : (t < T)%nat -> all !! t = Some (f t).
Proof.
  intros H. unfold all. rewrite lookup_app_l by (by rewrite map_length, seq_length). rewrite list_lookup_fmap, lookup_seq_lt by done. done.
Qed.
Lemma all_g t : (t < T)%nat -> all !! (T + t)%nat = Some (g t).
Proof.
  intros H. unfold all. rewrite lookup_app_r by (rewrite map_length, seq_length; lia). rewrite map_length, seq_length.
  rewrite lookup_app_l by (rewrite map_length, seq_length; lia). rewrite list_lookup_fmap, lookup_seq_lt by lia. cbn. do 2 f_equal. lia.
Qed.
Lemma met_sender r q j k : met r q j k ->
  exists u lu r', all !! u = Some lu /\ (forall v lv, all !! v = Some lv -> v <> u -> rsends q lv = []) /\ rsends q lu !! j = Some (r', k) /\ rlt r' r.
Proof.
  intros (t & d & r' & Ht & -> & Hj & Hlt). rewrite Forall_forall in x_sends. destruct d.
  - exists t, (f t), r'. split; [by apply all_f|]. split; [|by rewrite f_sends, Nat.eqb_refl].
    intros v lv Hv Hne. apply all_lookup in Hv as [[Hlt' ->]|[(t' & Ht' & -> & ->)|[_ Hx]]].
    + rewrite f_sends. destruct (Nat.eqb_spec v t); [lia|done].
    + by rewrite g_sends.
    + by apply x_sends.
  - exists (T + t)%nat, (g t), r'. split; [by apply all_g|]. split; [|by rewrite g_sends, Nat.eqb_refl].
    intros v lv Hv Hne. apply all_lookup in Hv as [[Hlt' ->]|[(t' & Ht' & -> & ->)|[_ Hx]]].
    + by rewrite f_sends.
    + rewrite g_sends. destruct (Nat.eqb_spec t' t); [lia|done].
    + by apply x_sends.
Qed.
Lemma pairs_ranked : ranked all.
Proof.
  rewrite Forall_forall in sorted_x, x_get, x_wait. split.
  - intros i l H. apply all_lookup in H as [[_ ->]|[(t & _ & _ & ->)|[_ Hx]]]; [done|done|by apply sorted_x].
  - intros i l r q j k H Hin. apply met_sender. apply all_lookup in H as [[? ->]|[(t & ? & _ & ->)|[_ Hx]]]; [by eapply f_get|by eapply g_get|by eapply x_get].
  - intros i l r q n H Hin. apply all_lookup in H as [[? ->]|[(t & ? & _ & ->)|[_ Hx]]]; [by eapply f_wait|by eapply g_wait|by eapply x_wait].
Qed.
Lemma pairs_complete : completes (map evs all).
Proof. apply ranked_completes, pairs_ranked. Qed.

End pairs.
