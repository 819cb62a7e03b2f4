(** Lemmas for Fail_Properties.v. *)
From Verif Require Import Base Fail_Model Fail_Spec.
Local Open Scope nat_scope.

Definition allTrue (l : list bool) : Prop := false ∉ l.
(** The ending that a state leads to. *)
Definition fated (s : state) (e : ending) : Prop :=
  if sStarted s then sFirst s = [] /\
       ((allTrue (sOwn s) /\ (forall l, l ∈ sThreads s -> allTrue l) /\ ends (sRest s) e) \/
        (e = Exception /\ sThreads s = [] /\ false ∈ sOwn s) \/
        (e = Terminated /\ sThreads s <> [] /\ (false ∈ sOwn s \/ exists l, l ∈ sThreads s /\ false ∈ l)))
  else ends (mkPart (sFirst s) (sThreads s) (sOwn s) :: sRest s) e.

Lemma fated_enter p r e : ends (p :: r) e -> fated (enter p r) e.
Proof. destruct p. done. Qed.
Lemma caller_ok s e : fated s e -> match callerStep s with inl s' => fated s' e | inr e' => e' = e end.
Proof.
  destruct s as [f th own st rest]. unfold fated, callerStep. cbn. destruct st.
  - intros [-> H]. destruct own as [|[|] own].
    + destruct (forallb _ th) eqn:F.
      * destruct H as [(_ & _ & H)|[(_ & _ & H)|(_ & _ & [H|(l & Hl & H)])]].
        -- destruct rest as [|p r]; [by inversion H|]. by apply fated_enter.
        -- by apply elem_of_nil in H.
        -- by apply elem_of_nil in H.
        -- rewrite forallb_forall in F. apply elem_of_list_In in Hl. apply F in Hl. destruct l; [by apply elem_of_nil in H|done].
      * cbn. split; [done|exact H].
    + cbn. split; [done|]. destruct H as [(H1 & H2 & H3)|[(-> & H2 & H)|(-> & H2 & [H|H])]].
      * left. split; [|done]. intros H. apply H1. by right.
      * right. left. repeat split; try done. by apply elem_of_cons in H as [H|H].
      * right. right. repeat split; try done. left. by apply elem_of_cons in H as [H|H].
      * right. right. repeat split; try done. by right.
    + destruct H as [(H1 & _)|[(-> & -> & _)|(-> & H2 & _)]]; [|done|by destruct th].
      exfalso. apply H1. by left.
  - destruct f as [|[|] f].
    + intros H. cbn. split; [done|]. inversion H as [|? ? ? (A & B & C) D|? ? A|? ? A B C|? ? A B C]; subst; cbn in *.
      * left. done.
      * by apply elem_of_nil in A.
      * right. left. done.
      * right. right. done.
    + cbn. intros H. inversion H as [|? ? ? (A & B & C) D|? ? A|? ? A B C|? ? A B C]; subst; cbn in *.
      * apply endsNext; [|done]. repeat split; cbn; try done. intros X. apply A. by right.
      * apply endsFirst. cbn. by apply elem_of_cons in A as [A|A].
      * apply endsAlone; cbn; try done. intros X. apply A. by right.
      * apply endsThreads; cbn; try done. intros X. apply A. by right.
    + intros H. inversion H as [|? ? ? (A & B & C) D|? ? A|? ? A B C|? ? A B C]; subst; cbn in *; try done; exfalso; apply A; by left.
Qed.
Lemma thread_ok i s e : fated s e -> match threadStep i s with inl s' => fated s' e | inr e' => e' = e end.
Proof.
  destruct s as [f th own st rest]. unfold threadStep. cbn. destruct st; [|done]. destruct (th !! i) as [[|[|] l]|] eqn:Hi; try done.
  - unfold fated. cbn. intros [-> H]. split; [done|]. assert ((true :: l) ∈ th) as Hin by (by eapply elem_of_list_lookup_2).
    destruct H as [(H1 & H2 & H3)|[(-> & H2 & H)|(-> & H2 & [H|(l' & Hl & H)])]].
    + left. split; [done|]. split; [|done]. intros l' Hl. apply elem_of_list_lookup in Hl as [j Hj]. destruct (decide (i = j)) as [<-|N].
      * rewrite list_lookup_insert in Hj by (by eapply lookup_lt_Some). injection Hj as <-. intros X. apply (H2 _ Hin). by right.
      * rewrite list_lookup_insert_ne in Hj by done. apply H2. by eapply elem_of_list_lookup_2.
    + subst th. by rewrite lookup_nil in Hi.
    + right. right. split; [done|]. split; [|by left]. intros E. apply H2. apply (f_equal length) in E. rewrite insert_length in E. by destruct th.
    + right. right. split; [done|]. split; [intros E; apply H2; apply (f_equal length) in E; rewrite insert_length in E; by destruct th|]. right.
      apply elem_of_list_lookup in Hl as [j Hj]. destruct (decide (i = j)) as [<-|N].
      * rewrite Hi in Hj. injection Hj as <-. exists l. split; [|by apply elem_of_cons in H as [H|H]].
        apply elem_of_list_lookup. exists i. apply list_lookup_insert. by eapply lookup_lt_Some.
      * exists l'. split; [|done]. apply elem_of_list_lookup. exists j. by rewrite list_lookup_insert_ne.
  - unfold fated. cbn. intros [_ H]. assert ((false :: l) ∈ th) as Hin by (by eapply elem_of_list_lookup_2).
    destruct H as [(H1 & H2 & H3)|[(-> & -> & H)|(-> & H2 & _)]]; [|by rewrite lookup_nil in Hi|done]. exfalso. apply (H2 _ Hin). by left.
Qed.
Lemma run_fate s sched e : fated s e -> run s sched = Running \/ run s sched = e.
Proof.
  revert s. induction sched as [|w sched IH]; intros s H; [by left|]. cbn. destruct w as [i|].
  - pose proof (thread_ok i s e H) as X. destruct (threadStep i s) as [s'|e']; [by apply IH|]. by right.
  - pose proof (caller_ok s e H) as X. destruct (callerStep s) as [s'|e']; [by apply IH|]. by right.
Qed.
Lemma parts_fate ps sched e : ends ps e -> runParts ps sched = Running \/ runParts ps sched = e.
Proof. destruct ps as [|p r]; intros H; [right; by inversion H|]. apply run_fate. by apply fated_enter. Qed.


(** Steps left in the current part, and in the parts to come. *)
Definition size (s : state) : nat :=
  length (sFirst s) + length (sOwn s) + list_sum (map length (sThreads s)) + (if sStarted s then 0 else 1).
Fixpoint restSize (ps : list part) : nat :=
  match ps with [] => 0 | p :: r => 2 + length (pFirst p) + length (pOwn p) + list_sum (map length (pThreads p)) + restSize r end.
Lemma list_sum_insert (th : list (list bool)) i l b : th !! i = Some (b :: l) -> list_sum (map length (<[i := l]> th)) + 1 = list_sum (map length th).
Proof.
  intros H. pose proof (take_drop_middle _ _ _ H) as E. rewrite <- E at 2. rewrite insert_take_drop by (by eapply lookup_lt_Some).
  rewrite !map_app, !list_sum_app. cbn [map]. change (list_sum (length l :: map length (drop (S i) th))) with (length l + list_sum (map length (drop (S i) th))).
  change (list_sum (length (b :: l) :: map length (drop (S i) th))) with (S (length l) + list_sum (map length (drop (S i) th))). lia.
Qed.
Lemma progress n s : size s + restSize (sRest s) <= n -> exists sched, run s sched <> Running.
Proof.
  revert s. induction n as [n IH] using lt_wf_ind. intros s Hn.
  assert (forall w s', (match w with None => callerStep s | Some i => threadStep i s end) = inl s' -> size s' + restSize (sRest s') < size s + restSize (sRest s) ->
    exists sched, run s sched <> Running) as K.
  { intros w s' E L. destruct (IH (size s' + restSize (sRest s')) ltac:(lia) s' ltac:(lia)) as [sched H]. exists (w :: sched). cbn. by rewrite E. }
  assert (forall w e, (match w with None => callerStep s | Some i => threadStep i s end) = inr e -> e <> Running -> exists sched, run s sched <> Running) as F.
  { intros w e E L. exists [w]. cbn. by rewrite E. }
  destruct s as [f th own st rest]. destruct st.
  - destruct own as [|[|] own].
    + destruct (forallb (fun l : list bool => match l with [] => true | _ => false end) th) eqn:A.
      * destruct rest as [|p r].
        -- apply (F None Returned); [unfold callerStep; cbn; by rewrite A|done].
        -- apply (K None (enter p r)); [unfold callerStep; cbn; by rewrite A|]. unfold size, enter. cbn [sFirst sThreads sOwn sStarted sRest restSize length]. lia.
      * assert (exists i b l, th !! i = Some (b :: l)) as (i & b & l & Hi).
        { clear -A. induction th as [|x th IH]; [done|]. cbn in A. destruct x as [|b l]; [|by exists 0, b, l]. destruct (IH A) as (i & b & l & H). by exists (S i), b, l. }
        destruct b.
        -- eapply (K (Some i)); [unfold threadStep; cbn; rewrite Hi; reflexivity|]. unfold size. cbn [sFirst sThreads sOwn sStarted sRest restSize length]. pose proof (list_sum_insert th i l true Hi). lia.
        -- apply (F (Some i) Terminated); [unfold threadStep; cbn; by rewrite Hi|done].
    + eapply (K None); [reflexivity|]. unfold size. cbn [sFirst sThreads sOwn sStarted sRest restSize length]. lia.
    + eapply (F None); [reflexivity|]. by destruct th.
  - destruct f as [|[|] f].
    + eapply (K None); [reflexivity|]. unfold size. cbn [sFirst sThreads sOwn sStarted sRest restSize length]. lia.
    + eapply (K None); [reflexivity|]. unfold size. cbn [sFirst sThreads sOwn sStarted sRest restSize length]. lia.
    + by eapply (F None); [reflexivity|].
Qed.
Lemma parts_reached ps e : ends ps e -> exists sched, runParts ps sched = e.
Proof.
  intros H. destruct ps as [|p r]; [exists []; by inversion H|]. cbn. destruct (progress _ (enter p r) (le_n _)) as [sched X]. exists sched.
  destruct (run_fate (enter p r) sched e (fated_enter p r e H)) as [Y|Y]; done.
Qed.
Lemma ends_total ps : exists e, ends ps e.
Proof.
  induction ps as [|p ps [e He]]; [exists Returned; constructor|].
  destruct (decide (false ∈ pFirst p)) as [A|A]; [exists Exception; by apply endsFirst|].
  destruct (decide (pThreads p = [])) as [B|B].
  - destruct (decide (false ∈ pOwn p)) as [C|C]; [exists Exception; by apply endsAlone|]. exists e. apply endsNext; [|done]. repeat split; try done. intros l Hl. rewrite B in Hl. by apply elem_of_nil in Hl.
  - destruct (decide (false ∈ pOwn p)) as [C|C]; [exists Terminated; apply endsThreads; auto|].
    destruct (decide (Exists (fun l => false ∈ l) (pThreads p))) as [D|D].
    + exists Terminated. apply endsThreads; auto. right. by apply Exists_exists in D.
    + exists e. apply endsNext; [|done]. repeat split; try done. intros l Hl X. apply D. apply Exists_exists. by exists l.
Qed.

Lemma thread_fails p T first chk t : allTrue first -> onThread p T t -> false ∈ chk 0 t -> ends (parts p T first chk) Terminated.
Proof.
  intros HF HT HC.
  assert (forall l, l <> [] -> t ∈ l -> exists x, x ∈ map (chk 0) l /\ false ∈ x) as M.
  { intros l _ Hl. exists (chk 0 t). split; [|done]. apply elem_of_list_In, in_map. by apply elem_of_list_In. }
  assert (forall a n, a <= t < a + n -> map (chk 0) (seq a n) <> [] /\ exists x, x ∈ map (chk 0) (seq a n) /\ false ∈ x) as N.
  { intros a n H. assert (t ∈ seq a n) as Hs by (apply elem_of_seq; lia). split; [|apply M; [|done]]; intros E; [apply map_eq_nil in E|]; rewrite E in Hs; by apply elem_of_nil in Hs. }
  assert (allTrue []) as Z by apply not_elem_of_nil.
  destruct p; cbn in HT; try done; cbn [parts]; apply endsThreads; cbn [pFirst pThreads pOwn]; try exact HF; try exact Z; try done;
    try (apply N; lia); try (right; apply N; lia).
  - right. destruct (N 0 T ltac:(lia)) as [_ (x & H & X)]. exists x. split; [by right|done].
  - right. destruct (N 0 T ltac:(lia)) as [_ (x & H & X)]. exists x. split; [by right|done].
  - subst t. right. exists (chk 0 1). split; [by left|done].
Qed.
Lemma inputs_fail p T first chk : checksFirst p -> false ∈ first -> ends (parts p T first chk) Exception.
Proof.
  unfold checksFirst. intros HP HF. destruct p; cbn [parts]; try (apply endsFirst; exact HF); exfalso; apply HP; rewrite !elem_of_cons; tauto.
Qed.
Lemma unthreaded p T first chk : 1 <= T -> ~ threaded p T -> ~ ends (parts p T first chk) Terminated.
Proof.
  intros H1 HT. assert (forall ps, Forall (fun q => pThreads q = []) ps -> ~ ends ps Terminated) as K.
  { intros ps HA HE. remember Terminated as e. induction HE; try done; apply Forall_cons in HA as [A B]; auto. }
  apply K. destruct p; cbn in HT; try (exfalso; lia); try (assert (T = 1) as -> by lia); by repeat constructor.
Qed.
(** A thread of the party. *)
Definition threadOf (p : party) : nat := match p with DktS | DktR | Rr16R | KkrtS => 1 | _ => 0 end.
Lemma onThread_some p T : threaded p T -> onThread p T (threadOf p).
Proof. destruct p; cbn; try done; lia. Qed.
Lemma permutation_fails T first chk : 1 <= T -> (forall b, b ∈ first -> b = true) -> false ∈ chk 0 T -> ends (parts Rr16S T first chk) Terminated.
Proof.
  intros HT HF HC. cbn [parts]. apply endsThreads; cbn [pFirst pThreads pOwn]; [intros X; by apply HF in X| |by left]. destruct T; [lia|]. done.
Qed.
Lemma own_fails p T first chk : 1 <= T -> (forall b, b ∈ first -> b = true) -> p ∈ [DktS; DktR; Rr16R; KkrtS; KkrtR; DcwS; DcwR] -> false ∈ chk 0 0 ->
  (threaded p T -> ends (parts p T first chk) Terminated) /\ (~ threaded p T -> ends (parts p T first chk) Exception).
Proof.
  intros HT HF HP HC. assert (false ∉ first) as HF' by (intros X; by apply HF in X). assert (allTrue []) as Z by apply not_elem_of_nil.
  assert (2 <= T -> map (chk 0) (seq 1 (T - 1)) <> []) as N by (intros L; destruct T as [|[|T]]; [lia|lia|done]).
  rewrite !elem_of_cons in HP. destruct HP as [->|[->|[->|[->|[->|[->|[->|HP]]]]]]]; [..|by apply elem_of_nil in HP]; cbn [threaded parts]; split; intros H; try (exfalso; lia);
    try (apply endsThreads; cbn [pFirst pThreads pOwn]; auto; done); try done; try (apply endsAlone; cbn [pFirst pThreads pOwn]; auto; by replace (T - 1) with 0 by lia).
Qed.
Lemma second_fails T first chk t : t < T -> (forall u, u < T -> false ∉ chk 0 u) -> false ∈ chk 1 t -> ends (parts EcdhR T first chk) Terminated.
Proof.
  intros HT H0 H1. assert (allTrue []) as Z by apply not_elem_of_nil. cbn [parts]. apply endsNext.
  - repeat split; cbn [pFirst pThreads pOwn]; try exact Z. intros l Hl. apply elem_of_list_In, in_map_iff in Hl as (u & <- & Hu). apply in_seq in Hu. apply H0. lia.
  - apply endsThreads; cbn [pFirst pThreads pOwn]; [exact Z|by destruct T; [lia|]|]. right. exists (chk 1 t). split; [|done]. apply elem_of_list_In, in_map, in_seq. lia.
Qed.
Lemma all_hold p T first chk : false ∉ first -> (forall k t, false ∉ chk k t) -> ends (parts p T first chk) Returned.
Proof.
  intros HF HC. assert (allTrue []) as Z by apply not_elem_of_nil.
  assert (forall k l x, x ∈ map (chk k) l -> false ∉ x) as M by (intros k l x Hx; apply elem_of_list_In, in_map_iff in Hx as (u & <- & _); apply HC).
  assert (forall f th own, false ∉ f -> false ∉ own -> (forall l, l ∈ th -> false ∉ l) -> holds (mkPart f th own)) as H by done.
  destruct p; cbn [parts]; repeat (apply endsNext; [apply H|]); try apply endsReturn; try done; try apply HC; try apply M; intros l Hl.
  - apply elem_of_replicate in Hl as [-> _]. exact Z.
  - apply elem_of_cons in Hl as [->|Hl]; [exact Z|by eapply M].
  - apply elem_of_cons in Hl as [->|Hl]; [exact Z|by eapply M].
  - apply elem_of_list_singleton in Hl as ->. apply HC.
  - by apply elem_of_nil in Hl.
  - by apply elem_of_nil in Hl.
  - by apply elem_of_nil in Hl.
Qed.
