(** Proofs about concurrent pushes. *)
From Verif Require Import Base Tools_Spec SimpleHasher_Model.

Lemma valsTo_app b l1 l2 : valsTo b (l1 ++ l2) = valsTo b l1 ++ valsTo b l2.
Proof. apply omap_app. Qed.
Lemma valsTo_perm b l1 l2 : l1 ≡ₚ l2 -> valsTo b l1 ≡ₚ valsTo b l2.
Proof. unfold valsTo. by intros ->. Qed.

Definition todoAll (ts : list pusher) : list (N * N) := concat (map puTodo ts).

Lemma todoAll_insert ts k t t' : ts !! k = Some t ->
  todoAll (<[k := t']> ts) ++ puTodo t ≡ₚ puTodo t' ++ todoAll ts.
Proof.
  intros Hk. unfold todoAll. rewrite (insert_take_drop ts k t') by eauto using lookup_lt_Some.
  rewrite <- (take_drop_middle ts k t Hk) at 3. rewrite !map_app, !concat_app. cbn [map concat].
  permN.
Qed.

Record PInv (bins : nat) (cap : N) (all : list (N * N)) (h : hasher) (ts : list pusher) : Prop := {
  pi_len1 : length (hSizes h) = bins;
  pi_len2 : length (hRows h) = bins;
  pi_todo : forall t b v, t ∈ ts -> (b, v) ∈ puTodo t -> (N.to_nat b < bins)%nat;
  pi_bin : forall b, (b < bins)%nat -> exists n row vals,
     hSizes h !! b = Some n /\ hRows h !! b = Some row /\ length row = N.to_nat cap /\
     length vals = N.to_nat n /\ valsTo b all ≡ₚ vals ++ valsTo b (todoAll ts) /\
     (forall t pos v, t ∈ ts -> puPending t = Some (N.of_nat b, pos, v) -> vals !! N.to_nat pos = Some v) /\
     (forall pos v, vals !! pos = Some v -> row !! pos = Some v \/
        exists t, t ∈ ts /\ puPending t = Some (N.of_nat b, N.of_nat pos, v));
  pi_pend : forall t b pos v, t ∈ ts -> puPending t = Some (b, pos, v) -> (N.to_nat b < bins)%nat }.

Lemma elem_insert {A} (l : list A) k (x y : A) : y ∈ <[k := x]> l -> y = x \/ y ∈ l.
Proof.
  intros (j & Hj)%elem_of_list_lookup. apply list_lookup_insert_Some in Hj as [(_ & ? & _)|(_ & ?)].
  - by left.
  - right. by eapply elem_of_list_lookup_2.
Qed.
Lemma elem_insert_2 {A} (l : list A) k (x y z : A) : l !! k = Some z -> y ∈ l -> y = z \/ y ∈ <[k := x]> l.
Proof.
  intros Hk (j & Hj)%elem_of_list_lookup. destruct (decide (j = k)) as [->|Hne].
  - left. congruence.
  - right. apply elem_of_list_lookup. exists j. by rewrite list_lookup_insert_ne.
Qed.

Lemma pushStep_PInv bins cap all h ts k t :
  cap <= 255 -> (forall b, (length (valsTo b all) <= N.to_nat cap)%nat) ->
  PInv bins cap all h ts -> ts !! k = Some t ->
  exists h' t', pushStep h t = Some (h', t') /\ PInv bins cap all h' (<[k := t']> ts).
Proof.
  intros Hcap Hload I Hk. pose proof (elem_of_list_lookup_2 _ _ _ Hk) as Ht.
  unfold pushStep. destruct (puPending t) as [[[b pos] v]|] eqn:Ep.
  - pose proof (pi_pend _ _ _ _ _ I t b pos v Ht Ep) as Hb.
    destruct (pi_bin _ _ _ _ _ I _ Hb) as (n & row & vals & Hn & Hrow & Hlr & Hlv & HP & H1 & H2).
    pose proof (H1 t pos v Ht ltac:(by rewrite N2Nat.id)) as Hpos.
    assert (N.to_nat pos < length row)%nat as Hlt.
    { apply lookup_lt_Some in Hpos. specialize (Hload (N.to_nat b)). rewrite HP, app_length in Hload. lia. }
    rewrite (proj2 (readN_Some _ _ _) Hrow).
    destruct (writeN row pos v) as [row'|] eqn:Ew.
    2:{ unfold writeN in Ew. destruct (N.ltb_spec pos (N.of_nat (length row))); [done|lia]. }
    apply writeN_Some in Ew as [_ ->]. eexists _, _. split; [reflexivity|].
    assert (todoAll (<[k := mkPusher None (puTodo t)]> ts) ≡ₚ todoAll ts) as Et.
    { pose proof (todoAll_insert ts k t (mkPusher None (puTodo t)) Hk) as Q. simpl in Q. permN. }
    split; simpl.
    + apply I.
    + rewrite insert_length. apply I.
    + intros u b0 v0 [->|Hu]%elem_insert; [apply (pi_todo _ _ _ _ _ I t b0 v0 Ht)|apply (pi_todo _ _ _ _ _ I u b0 v0 Hu)].
    + intros b0 Hb0. destruct (decide (b0 = N.to_nat b)) as [->|Hne].
      * exists n, (<[N.to_nat pos := v]> row), vals. split; [done|].
        split; [by rewrite list_lookup_insert by eauto using lookup_lt_Some|].
        split; [by rewrite insert_length|]. split; [done|].
        split; [rewrite HP; f_equiv; by apply valsTo_perm|]. split.
        -- intros u pos0 v0 [->|Hu]%elem_insert Hpu; [done|]. by eapply H1.
        -- intros p v0 Hv0. destruct (decide (p = N.to_nat pos)) as [->|Hp].
           ++ left. rewrite list_lookup_insert by done. congruence.
           ++ rewrite list_lookup_insert_ne by done. destruct (H2 p v0 Hv0) as [?|(u & Hu & Hpu)]; [by left|right].
              destruct (elem_insert_2 ts k (mkPusher None (puTodo t)) u t Hk Hu) as [->|?]; [|by exists u].
              exfalso. apply Hp. rewrite Ep in Hpu. injection Hpu as _ -> _. by rewrite Nat2N.id.
      * destruct (pi_bin _ _ _ _ _ I _ Hb0) as (n0 & row0 & vals0 & Hn0 & Hrow0 & Hlr0 & Hlv0 & HP0 & H10 & H20).
        exists n0, row0, vals0. split; [done|]. rewrite list_lookup_insert_ne by done. split; [done|].
        split; [done|]. split; [done|]. split; [rewrite HP0; f_equiv; by apply valsTo_perm|]. split.
        -- intros u pos0 v0 [->|Hu]%elem_insert Hpu; [done|]. by eapply H10.
        -- intros p v0 Hv0. destruct (H20 p v0 Hv0) as [?|(u & Hu & Hpu)]; [by left|right].
           destruct (elem_insert_2 ts k (mkPusher None (puTodo t)) u t Hk Hu) as [->|?]; [|by exists u].
           exfalso. rewrite Ep in Hpu. injection Hpu as E _ _. lia.
    + intros u b0 p0 v0 [->|Hu]%elem_insert Hpu; [done|]. apply (pi_pend _ _ _ _ _ I u b0 p0 v0 Hu Hpu).
  - destruct (puTodo t) as [|[b v] todo] eqn:Et.
    + eexists _, _. split; [reflexivity|]. by rewrite list_insert_id.
    + assert (N.to_nat b < bins)%nat as Hb by (eapply (pi_todo _ _ _ _ _ I t); [done|rewrite Et; left]).
      destruct (pi_bin _ _ _ _ _ I _ Hb) as (n & row & vals & Hn & Hrow & Hlr & Hlv & HP & H1 & H2).
      rewrite (proj2 (readN_Some _ _ _) Hn). eexists _, _. split; [reflexivity|].
      set (t' := mkPusher (Some (b, n, v)) todo).
      assert (todoAll ts ≡ₚ (b, v) :: todoAll (<[k := t']> ts)) as Et'.
      { pose proof (todoAll_insert ts k t t' Hk) as Q. rewrite Et in Q. simpl in Q. permN. }
      assert (n + 1 <= 255) as Hn1.
      { specialize (Hload (N.to_nat b)). rewrite HP, (valsTo_perm _ _ _ Et') in Hload.
        unfold valsTo at 1 in Hload. simpl in Hload. rewrite decide_True in Hload by done.
        rewrite app_length in Hload. simpl in Hload. lia. }
      assert (forall b0 u p0 v0, u ∈ <[k := t']> ts -> puPending u = Some (N.of_nat b0, p0, v0) ->
         (u ∈ ts \/ (b0 = N.to_nat b /\ p0 = n /\ v0 = v))) as Hpend.
      { intros b0 u p0 v0 [->|Hu]%elem_insert Hpu; [|by left]. right. simpl in Hpu. injection Hpu as -> -> ->.
        by rewrite Nat2N.id. }
      split; simpl.
      * rewrite insert_length. apply I.
      * apply I.
      * intros u b0 v0 [->|Hu]%elem_insert Hin; [|apply (pi_todo _ _ _ _ _ I u b0 v0 Hu Hin)]. simpl in Hin.
        eapply (pi_todo _ _ _ _ _ I t); [done|]. rewrite Et. by right.
      * intros b0 Hb0. destruct (decide (b0 = N.to_nat b)) as [->|Hne].
        -- exists (n + 1), row, (vals ++ [v]).
           split; [rewrite list_lookup_insert by eauto using lookup_lt_Some; f_equal; apply N.mod_small; lia|].
           split; [done|]. split; [done|]. split; [rewrite app_length; simpl; lia|].
           split.
           { rewrite HP, (valsTo_perm _ _ _ Et'). unfold valsTo at 1. simpl. rewrite decide_True by done.
             rewrite <- app_assoc. done. }
           split.
           ++ intros u p0 v0 Hu Hpu. destruct (Hpend _ _ _ _ Hu Hpu) as [Hu'|(_ & -> & ->)].
              ** rewrite lookup_app_l; [by eapply H1|]. by eapply lookup_lt_Some, H1.
              ** rewrite <- Hlv. by apply list_lookup_middle.
           ++ intros p v0 Hv0. apply lookup_app_Some in Hv0 as [Hv0|[Hge Hv0]].
              ** destruct (H2 p v0 Hv0) as [?|(u & Hu & Hpu)]; [by left|right].
                 destruct (elem_insert_2 ts k t' u t Hk Hu) as [->|?]; [|by exists u].
                 rewrite Ep in Hpu. done.
              ** right. exists t'. split.
                 { apply elem_of_list_lookup. exists k. apply list_lookup_insert. by eapply lookup_lt_Some. }
                 apply list_lookup_singleton_Some in Hv0 as [Hz ->]. simpl. f_equal. f_equal. f_equal; lia.
        -- destruct (pi_bin _ _ _ _ _ I _ Hb0) as (n0 & row0 & vals0 & Hn0 & Hrow0 & Hlr0 & Hlv0 & HP0 & H10 & H20).
           exists n0, row0, vals0. rewrite list_lookup_insert_ne by done. split; [done|]. split; [done|].
           split; [done|]. split; [done|]. split.
           { rewrite HP0, (valsTo_perm _ _ _ Et'). unfold valsTo at 1. simpl. by rewrite decide_False. }
           split.
           ++ intros u p0 v0 Hu Hpu. destruct (Hpend _ _ _ _ Hu Hpu) as [Hu'|(-> & _)]; [|done]. by eapply H10.
           ++ intros p v0 Hv0. destruct (H20 p v0 Hv0) as [?|(u & Hu & Hpu)]; [by left|right].
              destruct (elem_insert_2 ts k t' u t Hk Hu) as [->|?]; [|by exists u].
              rewrite Ep in Hpu. done.
      * intros u b0 p0 v0 [->|Hu]%elem_insert Hpu; [simpl in Hpu; by injection Hpu as <- _ _|apply (pi_pend _ _ _ _ _ I u b0 p0 v0 Hu Hpu)].
Qed.

Lemma pushRun_PInv bins cap all sched : forall h ts,
  cap <= 255 -> (forall b, (length (valsTo b all) <= N.to_nat cap)%nat) ->
  PInv bins cap all h ts -> exists h' ts', pushRun h ts sched = Some (h', ts') /\ PInv bins cap all h' ts'.
Proof.
  induction sched as [|k sched IH]; intros h ts Hc Hl I; simpl; [eauto|].
  destruct (ts !! k) as [t|] eqn:Hk; [|by apply IH].
  destruct (pushStep_PInv _ _ _ _ _ _ _ Hc Hl I Hk) as (h' & t' & -> & I'). by apply IH.
Qed.

Lemma push_init bins cap h0 (work : list (list (N * N))) :
  hInit bins cap = Done h0 ->
  Forall (fun p => (N.to_nat p.1 < bins)%nat) (concat work) ->
  cap <= 255 /\ PInv bins cap (concat work) h0 (map (mkPusher None) work).
Proof.
  unfold hInit. destruct (N.ltb_spec 255 cap) as [|Hc]; [done|]. intros [= <-] F. split; [done|].
  assert (todoAll (map (mkPusher None) work) = concat work) as Et.
  { unfold todoAll. rewrite map_map. simpl. by rewrite map_id. }
  split; simpl.
  - by rewrite replicate_length.
  - by rewrite replicate_length.
  - intros t b v Ht Hin. apply elem_of_list_fmap in Ht as (w & -> & Hw). simpl in Hin.
    rewrite Forall_forall in F. apply (F (b, v)). apply elem_of_concat. by exists w.
  - intros b Hb. exists 0, (replicate (N.to_nat cap) 0), []. rewrite Et.
    rewrite !lookup_replicate_2 by done. rewrite replicate_length. split_and!; try done.
    intros t pos v (w & -> & Hw)%elem_of_list_fmap. done.
  - intros t b pos v (w & -> & Hw)%elem_of_list_fmap. done.
Qed.

Lemma push_concurrent bins cap h0 work sched :
  hInit bins cap = Done h0 ->
  Forall (fun p => (N.to_nat p.1 < bins)%nat) (concat work) ->
  (forall b, (length (valsTo b (concat work)) <= N.to_nat cap)%nat) ->
  exists h ts, pushRun h0 (map (mkPusher None) work) sched = Some (h, ts) /\
    (Forall (fun t => puPending t = None /\ puTodo t = []) ts ->
     forall b, getBin h b ≡ₚ if decide (b < bins)%nat then valsTo b (concat work) else []).
Proof.
  intros Hi F Hl. destruct (push_init _ _ _ _ Hi F) as [Hc I].
  destruct (pushRun_PInv _ _ _ sched _ _ Hc Hl I) as (h & ts & E & I'). exists h, ts. split; [done|].
  intros Fin b. assert (todoAll ts = []) as Et.
  { unfold todoAll. clear -Fin. induction Fin as [|t ts [_ H] _ IH]; [done|]. simpl. by rewrite H, IH. }
  rewrite Forall_forall in Fin. unfold getBin. destruct (decide (b < bins)%nat) as [Hb|Hb].
  - destruct (pi_bin _ _ _ _ _ I' _ Hb) as (n & row & vals & -> & -> & Hlr & Hlv & HP & H1 & H2).
    rewrite HP, Et. simpl. rewrite app_nil_r.
    assert (take (N.to_nat n) row = vals) as ->; [|done].
    apply list_eq. intros p. destruct (decide (p < N.to_nat n)%nat) as [Hp|Hp].
    + rewrite lookup_take by done. rewrite <- Hlv in Hp. apply lookup_lt_is_Some in Hp as [v Hv].
      rewrite Hv. destruct (H2 _ _ Hv) as [?|(t & Ht & Hpt)]; [done|].
      destruct (Fin _ Ht) as [Hn _]. congruence.
    + rewrite lookup_take_ge by lia. symmetry. apply lookup_ge_None. lia.
  - destruct (hSizes h !! b) eqn:Es; [|done]. apply lookup_lt_Some in Es.
    rewrite (pi_len1 _ _ _ _ _ I') in Es. done.
Qed.
