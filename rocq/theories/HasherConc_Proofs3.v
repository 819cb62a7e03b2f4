(** Proofs about concurrent insertions in [CuckooHasher]: results, progress and races. *)
From stdpp Require Import sets.
From Verif Require Import Base CuckooHasher_Model CuckooHasher_Spec CuckooHasher_Proofs
  CuckooHasher_Proofs2 CuckooHasher_Proofs3 CuckooHasher_Proofs4 CuckooHasher_Proofs5
  HasherConc_Model HasherConc_Spec HasherConc_Proofs HasherConc_Proofs2.

Local Notation fresh n num bins stash := (initWith n num bins stash constructed).

Lemma opsItems_cons o os : opsItems (o :: os) = opItems o ++ opsItems os.
Proof. done. Qed.

Lemma opsItems_concat_elem progs os x : os ∈ progs -> x ∈ opsItems os -> x ∈ opsItems (concat progs).
Proof.
  intros Ho Hx. apply elem_of_list_split in Ho as (l1 & l2 & ->).
  rewrite concat_app. cbn [concat]. rewrite !opsItems_app. set_solver.
Qed.

Lemma start_CInv n num bins stash progs : legalSize n num bins -> legalOps n num (concat progs) ->
  CInv n (opsItems (concat progs)) (start (fresh n num bins stash) progs).
Proof.
  intros Hs [[ND Lg] Wo]. destruct (init_Inv n num bins stash Hs) as [I Fr].
  constructor; cbn [start gTable gThreads].
  - apply I.
  - done.
  - eapply Forall_impl; [exact Lg|]. intros x (A & B & C). done.
  - pose proof (inv_stored _ _ _ I) as P. apply Permutation_sym, Permutation_nil in P. rewrite P. cbn [app].
    clear. induction progs as [|os progs IH]; [done|]. rewrite !map_cons. cbn [concat].
    rewrite opsItems_app, fmap_app. unfold owned at 1. cbn [tPc tProg hands app].
    rewrite progIdx_ops. by rewrite IH.
  - pose proof (inv_stored _ _ _ I) as P. apply Permutation_sym, Permutation_nil in P. rewrite P. constructor.
  - intros k t Ht. apply elem_of_list_lookup_2, elem_of_list_In, in_map_iff in Ht as (os & <- & Hos).
    apply elem_of_list_In in Hos.
    split; [done|]. split; [constructor|]. exists os. split; [done|]. cbn [tProg]. split.
    + rewrite Forall_forall in Wo. apply Forall_forall. intros o Ho. apply Wo. apply elem_of_list_In, in_concat.
      exists os. split; by apply elem_of_list_In.
    + apply Forall_forall. intros x Hx. pose proof (opsItems_concat_elem _ _ _ Hos Hx) as Hx'.
      split; [done|]. apply Fr; [|by intros H; apply elem_of_nil in H].
      rewrite Forall_forall in Lg. apply (Lg x Hx').
Qed.

Lemma returned_owned ts : Forall returned ts -> concat (map owned ts) = [].
Proof.
  induction 1 as [|t ts [E1 E2] _ IH]; [done|]. rewrite map_cons. cbn [concat]. rewrite IH.
  unfold owned. by rewrite E1, E2.
Qed.

Lemma CInv_Inv n all g : CInv n all g -> allReturned g -> Inv n (gTable g) all.
Proof.
  intros I F. constructor.
  - apply I.
  - apply I.
  - pose proof (ci_perm _ _ _ I) as P. rewrite (returned_owned _ F), app_nil_r in P.
    pose proof (ci_items _ _ _ I) as It. pose proof (ci_rows _ _ _ I) as R.
    rewrite Forall_forall in It. rewrite Forall_forall in R.
    apply Forall_forall. intros [i row] Hx. destruct (It _ Hx) as [V L].
    split; [done|]. split; [done|]. apply R; [|done]. rewrite P. by apply (elem_of_list_fmap_1 fst _ (i, row)).
  - pose proof (ci_perm _ _ _ I) as P. by rewrite (returned_owned _ F), app_nil_r in P.
Qed.

Lemma step_num g k : hNum (gTable (stepAt g k)) = hNum (gTable g) /\
  length (hStash (gTable (stepAt g k))) = length (hStash (gTable g)).
Proof.
  unfold stepAt. destruct (gThreads g !! k) as [t|]; [|done].
  destruct (stepThread (gTable g) t) as [c' t'] eqn:E. cbn [gTable].
  unfold stepThread in E. destruct (tPc t) as [|idx row|m [|[q x] pend] items|m tries items addrs|m tries items addrs olds|m [|[idx h] items] j|l|l].
  - destruct (tProg t) as [|[idx row|ws idxs hashs] p]; [by injection E as <- <-|by injection E as <- <-|].
    destruct (ws <? length idxs)%nat; [by injection E as <- <-|].
    destruct (batchWrites _ _ _ _); by injection E as <- <-.
  - destruct (cell (gTable g) idx 0) as [x|]; [|by injection E as <- <-].
    destruct (negb (x =? minus1)); [by injection E as <- <-|].
    destruct (rowWrites _ _ _ _); by injection E as <- <-.
  - by injection E as <- <-.
  - destruct (writeN _ _ _); by injection E as <- <-.
  - destruct (items !! length addrs) as [[idx h]|]; [|by injection E as <- <-].
    destruct (addrOf _ _ _); by injection E as <- <-.
  - destruct (items !! length olds) as [[idx h]|]; [|by injection E as <- <-].
    destruct (addrs !! length olds) as [a|]; [|by injection E as <- <-].
    destruct (readN _ _); by injection E as <- <-.
  - by injection E as <- <-.
  - destruct (readN _ _); injection E as <- <-; [|done]. cbn [hNum hStash]. by rewrite insert_length.
  - by injection E as <- <-.
  - by injection E as <- <-.
Qed.

Lemma run_num sched : forall g, hNum (gTable (runSched g sched)) = hNum (gTable g) /\
  length (hStash (gTable (runSched g sched))) = length (hStash (gTable g)).
Proof.
  induction sched as [|k sched IH]; intros g; [done|]. cbn [runSched foldl].
  destruct (IH (stepAt g k)) as [A B]. destruct (step_num g k) as [C D].
  change (foldl stepAt (stepAt g k) sched) with (runSched (stepAt g k) sched). by rewrite A, B.
Qed.

Lemma conc_retained n num bins stash progs sched : legalSize n num bins -> legalOps n num (concat progs) ->
  allReturned (runSched (start (fresh n num bins stash) progs) sched) ->
  let c := gTable (runSched (start (fresh n num bins stash) progs) sched) in
  Permutation (storedIn c) (opsItems (concat progs)).*1 /\
  Forall (fun x => placed c x.1 x.2) (opsItems (concat progs)) /\
  forall q, N.of_nat (length q) = num -> exists r, find c q = Done r /\ answers (opsItems (concat progs)) q r.
Proof.
  intros Hs Hl F c.
  pose proof (run_CInv n _ sched _ (start_CInv n num bins stash progs Hs Hl)) as I.
  pose proof (CInv_Inv _ _ _ I F) as Iv. fold c in Iv.
  split; [rewrite storedIn_stored; apply Iv|]. split.
  - apply Forall_forall. intros [i row] Hx. by eapply Inv_placed.
  - intros q Lq. apply (find_spec n); [done|].
    destruct (run_num sched (start (fresh n num bins stash) progs)) as [E _]. fold c in E. rewrite E. done.
Qed.

(** Only a full stash stops a thread. *)
Lemma conc_stops n num bins stash progs sched k t : legalSize n num bins -> legalOps n num (concat progs) ->
  gThreads (runSched (start (fresh n num bins stash) progs) sched) !! k = Some t ->
  (exists l, tPc t = Failed l) \/ (exists l, tPc t = Stuck l) ->
  (2 ^ 64 - 1) ∉ hStash (gTable (runSched (start (fresh n num bins stash) progs) sched)).
Proof.
  intros Hs Hl Hk H.
  pose proof (run_CInv n _ sched _ (start_CInv n num bins stash progs Hs Hl)) as I.
  destruct (ci_threads _ _ _ I _ _ Hk) as (P & _ & _). destruct H as [[l E]|[l E]]; by rewrite E in P.
Qed.

(** ** Progress *)

Definition cost (num stash : N) (p : pc) : N :=
  match p with
  | Idle | Failed _ | Stuck _ => 0
  | Check _ _ => 1 + (num + 1 + 101 * 4 + stash + 1)
  | Write _ pend items => N.of_nat (length pend) + 1 + 101 * (2 * N.of_nat (length items) + 2) + stash + 1
  | Fetch _ tries items addrs =>
      (N.of_nat (length items) - N.of_nat (length addrs)) + 1 + N.of_nat (length items) + 1 +
      N.of_nat tries * (2 * N.of_nat (length items) + 2) + stash + 1
  | Exch _ tries items addrs olds =>
      (N.of_nat (length items) - N.of_nat (length olds)) + 1 +
      N.of_nat tries * (2 * N.of_nat (length items) + 2) + stash + 1
  | Stash _ _ j => (stash - j) + 1
  end.

(** What is left to do for a thread is at most [b] turns. *)
Definition within (c : Hasher) (t : thread) (b : N) : Prop :=
  exists os, tProg t = map callOf os /\
    (stopped t \/ cost (hNum c) (N.of_nat (length (hStash c))) (tPc t) + opsTurns (hNum c) (N.of_nat (length (hStash c))) os <= b).

Lemma stopped_step c t : stopped t -> stepThread c t = (c, t).
Proof.
  destruct t as [p prog]. intros [[E1 E2]|[[l E]|[l E]]]; cbn [tPc tProg] in *; subst; done.
Qed.

Lemma afterRound_cost c m tries items olds stash : single m items -> length olds = length items ->
  cost (hNum c) stash (afterRound (hNum c) m tries items olds) <=
  N.of_nat tries * (2 * N.of_nat (length items) + 2) + stash + 1.
Proof.
  intros Sg L. unfold afterRound. destruct m.
  - pose proof (Sg eq_refl) as S1. destruct olds as [|old olds]; [cbn [cost]; lia|].
    destruct (binEmpty old); [cbn [cost]; lia|].
    destruct tries as [|tries]; cbn [cost length]; rewrite S1; lia.
  - destruct (compact_spec (hNum c) items.*1 items.*2 olds) as (l & Ec & L1 & L2 & T).
    { by rewrite !fmap_length. } { rewrite fmap_length. lia. }
    rewrite <- L, Ec. cbv zeta. unfold zipped in T. rewrite T.
    pose proof (filter_len_le used olds) as Hle.
    assert (length (map (dec (hNum c)) (List.filter used olds)) <= length olds)%nat as Hl by (by rewrite map_length).
    destruct (map (dec (hNum c)) (List.filter used olds)) as [|y items']; [cbn [cost]; lia|].
    destruct tries as [|[|tries]]; cbn [cost]; [lia|lia|].
    cbn [length] in *.
    assert (N.of_nat (S tries) * (2 * N.of_nat (S (length items')) + 2) <= N.of_nat (S tries) * (2 * N.of_nat (length olds) + 2))
      by (apply N.mul_le_mono_l; lia).
    lia.
Qed.

Lemma step_within n all g k t c' t' b : CInv n all g -> gThreads g !! k = Some t ->
  stepThread (gTable g) t = (c', t') -> within (gTable g) t b ->
  within (gTable g) t' (b - 1).
Proof.
  intros I Hk E (os & Eo & [St|Hb]).
  { rewrite (stopped_step _ _ St) in E. injection E as <- <-. exists os. split; [done|by left]. }
  pose proof (ci_threads _ _ _ I _ _ Hk) as (P & _ & _).
  destruct t as [p prog]. cbn [tPc tProg] in *. subst prog.
  set (num := hNum (gTable g)) in *. set (st := N.of_nat (length (hStash (gTable g)))) in *.
  unfold stepThread in E. cbn [tPc tProg] in E. fold num in E. unfold within. fold num st.
  destruct p as [|idx row|m pend items|m tries items addrs|m tries items addrs olds|m items j|l|l].
  - destruct os as [|[idx row|ws its] os]; cbn [map callOf] in E.
    + injection E as <- <-. exists []. split; [done|]. left. by left.
    + injection E as <- <-. exists os. split; [done|]. right. cbn [tPc cost opsTurns] in *. unfold turns in Hb. cbn [opItems length] in Hb.
      change (N.of_nat 1) with 1 in Hb. lia.
    + exists os. rewrite fmap_length in E. destruct (ws <? length its)%nat.
      { injection E as <- <-. split; [done|]. left. right. right. by eexists. }
      destruct (batchWrites num its.*1 (concat its.*2) 0) as [pend|] eqn:Eb; injection E as <- <-; (split; [done|]).
      * right. cbn [tPc cost opsTurns] in *. unfold turns in Hb. cbn [opItems] in Hb.
        rewrite (batchWrites_len num its.*1 (concat its.*2) 0 pend Eb), !fmap_length. lia.
      * left. right. right. by eexists.
  - exists os. destruct (cell (gTable g) idx 0) as [x|].
    2:{ injection E as <- <-. split; [done|]. left. right. right. by eexists. }
    destruct (negb (x =? minus1)).
    { injection E as <- <-. split; [done|]. left. right. left. by eexists. }
    destruct (rowWrites (N.to_nat num) row 0 _) as [pend|] eqn:Eb; injection E as <- <-; (split; [done|]).
    + right. cbn [tPc cost length] in *. rewrite (rowWrites_len _ _ _ _ _ Eb). lia.
    + left. right. right. by eexists.
  - exists os. destruct pend as [|[q x] pend].
    + injection E as <- <-. split; [done|]. right. destruct items as [|y items]; cbn [tPc enter cost length] in *; lia.
    + destruct (writeN _ _ _); injection E as <- <-; (split; [done|]).
      * right. cbn [tPc cost length] in *. lia.
      * left. right. right. by eexists.
  - exists os. destruct P as (_ & _ & L & _). destruct (items !! length addrs) as [[idx h]|] eqn:Ei.
    + destruct (addrOf _ _ _); injection E as <- <-; (split; [done|]).
      * right. cbn [tPc cost] in *. rewrite app_length. cbn [length].
        apply lookup_lt_Some in Ei. lia.
      * left. right. right. by eexists.
    + injection E as <- <-. split; [done|]. right. cbn [tPc cost length] in *. lia.
  - exists os. destruct P as (_ & S & L & Lo & _).
    destruct (items !! length olds) as [[idx h]|] eqn:Ei.
    + destruct (lookup_lt_is_Some_2 addrs (length olds)) as [a Ha]; [rewrite L; by eapply lookup_lt_Some|].
      rewrite Ha in E. destruct (readN _ _); injection E as <- <-; (split; [done|]).
      * right. cbn [tPc cost] in *. rewrite app_length. cbn [length]. apply lookup_lt_Some in Ei. lia.
      * left. right. right. by eexists.
    + apply lookup_ge_None in Ei. fold num in E. destruct (num =? 0); injection E as <- <-; (split; [done|]).
      * left. right. right. by eexists.
      * right. cbn [tPc]. pose proof (afterRound_cost (gTable g) m tries items olds st S ltac:(lia)) as Hc.
        fold num in Hc. cbn [cost] in Hb. lia.
  - exists os. destruct items as [|[idx h] items].
    + injection E as <- <-. split; [done|]. right. cbn [tPc cost] in *. lia.
    + destruct (readN (hStash (gTable g)) j) as [old|] eqn:Er; injection E as <- <-; (split; [done|]).
      * right. cbn [tPc cost] in *. apply readN_Some, lookup_lt_Some in Er. lia.
      * left. right. destruct m; [right|left]; by eexists.
  - injection E as <- <-. exists os. split; [done|]. left. right. left. by eexists.
  - injection E as <- <-. exists os. split; [done|]. left. right. right. by eexists.
Qed.

Lemma within_ext c c' t b : hNum c' = hNum c -> length (hStash c') = length (hStash c) -> within c t b -> within c' t b.
Proof. unfold within. intros -> ->. done. Qed.

Lemma run_within n all k sched : forall g t b, CInv n all g -> gThreads g !! k = Some t -> within (gTable g) t b ->
  exists t', gThreads (runSched g sched) !! k = Some t' /\
    within (gTable (runSched g sched)) t' (b - turnsOf k sched).
Proof.
  induction sched as [|k' sched IH]; intros g t b I Hk W.
  - exists t. split; [done|]. by rewrite N.sub_0_r.
  - cbn [runSched foldl]. pose proof (step_CInv n all g k' I) as I'. destruct (step_num g k') as [E1 E2].
    destruct (Nat.eq_dec k' k) as [->|Hne].
    + unfold stepAt in *. rewrite Hk in *. destruct (stepThread (gTable g) t) as [c' t'] eqn:E.
      cbn [gTable gThreads] in *.
      destruct (IH (mkConfig c' (<[k := t']> (gThreads g))) t' (b - 1)) as (t2 & H1 & H2); [done| | |].
      * apply list_lookup_insert. by eapply lookup_lt_Some.
      * cbn [gTable]. eapply within_ext; [exact E1|exact E2|]. by eapply step_within.
      * exists t2. split; [done|]. unfold turnsOf in *. cbn [List.filter]. rewrite Nat.eqb_refl. cbn [length].
        replace (b - N.of_nat (S (length (List.filter (Nat.eqb k) sched)))) with
          (b - 1 - N.of_nat (length (List.filter (Nat.eqb k) sched))) by lia. done.
    + destruct (IH (stepAt g k') t b) as (t2 & H1 & H2); [done| | |].
      * unfold stepAt. destruct (gThreads g !! k') as [u|]; [|done].
        destruct (stepThread (gTable g) u). cbn [gThreads]. by rewrite list_lookup_insert_ne.
      * by eapply within_ext.
      * exists t2. split; [done|]. unfold turnsOf in *. cbn [List.filter].
        rewrite (proj2 (Nat.eqb_neq k k')) by done. done.
Qed.

Lemma within_stopped c t : within c t 0 -> stopped t.
Proof.
  intros (os & E & [St|Hb]); [done|]. destruct t as [p prog]. cbn [tPc tProg] in *. subst prog.
  destruct os as [|o os].
  - destruct p; cbn [cost] in Hb; try lia; [by left|right; left; by eexists|right; right; by eexists].
  - cbn [opsTurns] in Hb. unfold turns in Hb. lia.
Qed.

(** Whatever the other threads do. *)
Lemma conc_progress n num bins stash progs sched k os : legalSize n num bins -> legalOps n num (concat progs) ->
  progs !! k = Some os -> opsTurns num stash os <= turnsOf k sched ->
  exists t, gThreads (runSched (start (fresh n num bins stash) progs) sched) !! k = Some t /\ stopped t.
Proof.
  intros Hs Hl Hk Hb.
  pose proof (start_CInv n num bins stash progs Hs Hl) as I.
  assert (N.of_nat (length (hStash (fresh n num bins stash))) = stash) as Es.
  { unfold initWith. cbn [hStash]. rewrite resize_length. lia. }
  destruct (run_within n _ k sched (start (fresh n num bins stash) progs) (mkThread Idle (map callOf os))
    (opsTurns num stash os) I) as (t & H1 & H2).
  - cbn [start gThreads]. by rewrite list_lookup_fmap, Hk.
  - exists os. split; [done|]. right. cbn [start gTable tPc cost]. rewrite Es. cbn [initWith hNum]. lia.
  - exists t. split; [done|]. apply (within_stopped (gTable (runSched (start (fresh n num bins stash) progs) sched))).
    by replace (opsTurns num stash os - turnsOf k sched) with 0 in H2 by lia.
Qed.

(** ** Races *)

(** Indices whose rows a thread may still write. *)
Definition mayWrite (t : thread) : list N :=
  match tPc t with Check idx _ => [idx] | Write _ _ items => items.*1 | _ => [] end ++
  concat (map callIdx (tProg t)).

Lemma step_mayWrite c t c' t' i : stepThread c t = (c', t') -> i ∈ mayWrite t' -> i ∈ mayWrite t.
Proof.
  destruct t as [p prog]. unfold stepThread, mayWrite. cbn [tPc tProg].
  destruct p as [|idx row|m pend items|m tries items addrs|m tries items addrs olds|m items j|l|l].
  - destruct prog as [|[idx row|ws idxs hashs] prog].
    + by intros [= <- <-].
    + intros [= <- <-]. done.
    + destruct (ws <? length idxs)%nat; [intros [= <- <-]; cbn [tPc tProg map concat callIdx]; set_solver|].
      destruct (batchWrites _ _ _ _); intros [= <- <-]; cbn [tPc tProg map concat callIdx]; rewrite ?fst_zeros; set_solver.
  - destruct (cell c idx 0) as [x|]; [|intros [= <- <-]; cbn [tPc tProg]; set_solver].
    destruct (negb (x =? minus1)); [intros [= <- <-]; cbn [tPc tProg]; set_solver|].
    destruct (rowWrites _ _ _ _); intros [= <- <-]; cbn [tPc tProg]; [done|set_solver].
  - destruct pend as [|[q x] pend].
    + intros [= <- <-]. cbn [tPc tProg]. destruct items; cbn [enter]; set_solver.
    + destruct (writeN _ _ _); intros [= <- <-]; cbn [tPc tProg]; [done|set_solver].
  - destruct (items !! length addrs) as [[idx h]|]; [|by intros [= <- <-]].
    destruct (addrOf _ _ _); by intros [= <- <-].
  - destruct (items !! length olds) as [[idx h]|]; [destruct (addrs !! length olds) as [a|]|].
    + destruct (readN _ _); by intros [= <- <-].
    + intros [= <- <-]. cbn [tPc tProg]. destruct (hNum c =? 0); [done|].
      unfold afterRound. destruct m.
      * destruct olds as [|old olds]; [done|]. destruct (binEmpty old); [done|]. by destruct tries.
      * destruct (compact _ _ _) as [l r]. destruct (take r _); [done|]. by destruct tries as [|[|]].
    + intros [= <- <-]. cbn [tPc tProg]. destruct (hNum c =? 0); [done|].
      unfold afterRound. destruct m.
      * destruct olds as [|old olds]; [done|]. destruct (binEmpty old); [done|]. by destruct tries.
      * destruct (compact _ _ _) as [l r]. destruct (take r _); [done|]. by destruct tries as [|[|]].
  - destruct items as [|[idx h] items]; [by intros [= <- <-]|].
    destruct (readN _ _); intros [= <- <-]; [done|]. by destruct m.
  - by intros [= <- <-].
  - by intros [= <- <-].
Qed.

(** Every write of a run is in a row that belongs to the writing thread. *)
Lemma accesses_mine n all sched : forall g (own : nat -> list N), CInv n all g ->
  (forall k t i, gThreads g !! k = Some t -> i ∈ mayWrite t -> i ∈ own k) ->
  forall k q, (k, true, q) ∈ accesses g sched ->
  exists i j, i ∈ own k /\ i ∈ all.*1 /\ j < hNum (gTable g) /\ q = i * hNum (gTable g) + j.
Proof.
  induction sched as [|k0 sched IH]; intros g own I Ho k q H; [by apply elem_of_nil in H|].
  cbn [accesses] in H. apply elem_of_app in H as [H|H].
  - destruct (gThreads g !! k0) as [t|] eqn:Hk; [|by apply elem_of_nil in H]. cbn [mbind option_bind] in H.
    pose proof (ci_threads _ _ _ I _ _ Hk) as (P & _ & _).
    unfold plainAccess in H. destruct (tPc t) as [|idx row|m pend items|m tries items addrs| | | |] eqn:Ep;
      try (by apply elem_of_nil in H).
    + apply elem_of_list_singleton in H. done.
    + destruct pend as [|[q' x] pend]; [by apply elem_of_nil in H|].
      apply elem_of_list_singleton in H. injection H as -> ->.
      destruct P as (_ & _ & P1 & _). destruct (P1 q' x ltac:(by constructor)) as (i & row & j & Hi & Hr & Hj & -> & _).
      exists i, j. split; [|split; [by apply (elem_of_list_fmap_1 fst _ (i, row))|done]].
      apply (Ho k0 t i Hk). unfold mayWrite. rewrite Ep. apply elem_of_app. by left.
    + destruct (items !! length addrs) as [[idx h]|]; [|by apply elem_of_nil in H].
      apply elem_of_list_singleton in H. done.
  - destruct (step_num g k0) as [E _]. rewrite <- E. apply (IH (stepAt g k0) own); [by apply step_CInv| |done].
    intros k' t' i Hk' Hi. unfold stepAt in Hk'. destruct (gThreads g !! k0) as [t|] eqn:Hk; [|by eapply Ho].
    destruct (stepThread (gTable g) t) as [c1 t1] eqn:Es. cbn [gThreads] in Hk'.
    destruct (decide (k' = k0)) as [->|Hne].
    + rewrite list_lookup_insert in Hk' by (by eapply lookup_lt_Some). injection Hk' as <-.
      eapply Ho; [exact Hk|]. by eapply step_mayWrite.
    + rewrite list_lookup_insert_ne in Hk' by done. by eapply Ho.
Qed.

Lemma conc_no_ww n num bins stash progs sched k1 k2 q : legalSize n num bins -> legalOps n num (concat progs) ->
  (k1, true, q) ∈ accesses (start (fresh n num bins stash) progs) sched ->
  (k2, true, q) ∈ accesses (start (fresh n num bins stash) progs) sched -> k1 = k2.
Proof.
  intros Hs Hl H1 H2. pose proof (start_CInv n num bins stash progs Hs Hl) as I.
  set (own := fun k => match progs !! k with Some os => (opsItems os).*1 | None => [] end).
  assert (forall k t i, gThreads (start (fresh n num bins stash) progs) !! k = Some t -> i ∈ mayWrite t -> i ∈ own k) as Ho.
  { intros k t i Hk Hi. cbn [start gThreads] in Hk. rewrite list_lookup_fmap in Hk. unfold own.
    destruct (progs !! k) as [os|]; [|done]. injection Hk as <-.
    unfold mayWrite in Hi. cbn [tPc tProg app] in Hi. by rewrite progIdx_ops in Hi. }
  destruct (accesses_mine n _ sched _ own I Ho _ _ H1) as (i1 & j1 & O1 & A1 & L1 & E1).
  destruct (accesses_mine n _ sched _ own I Ho _ _ H2) as (i2 & j2 & O2 & A2 & L2 & E2).
  cbn [start gTable initWith hNum] in *.
  assert (i1 = i2) as ->.
  { destruct (N.lt_trichotomy i1 i2) as [Hlt|[->|Hlt]]; [|done|].
    - assert ((i1 + 1) * num <= i2 * num) by (apply N.mul_le_mono_r; lia). lia.
    - assert ((i2 + 1) * num <= i1 * num) by (apply N.mul_le_mono_r; lia). lia. }
  destruct (decide (k1 = k2)) as [->|Hne]; [done|exfalso].
  destruct Hl as [[ND _] _]. unfold own in O1, O2.
  destruct (progs !! k1) as [os1|] eqn:P1; [|by apply elem_of_nil in O1].
  destruct (progs !! k2) as [os2|] eqn:P2; [|by apply elem_of_nil in O2].
  assert (Permutation (concat progs) (os1 ++ concat (take k1 progs ++ drop (S k1) progs))) as Pp.
  { rewrite <- (take_drop_middle progs k1 os1 P1) at 1. rewrite !concat_app. cbn [concat]. apply Permutation_app_swap_app. }
  assert (Permutation (opsItems (concat progs)) (opsItems os1 ++ opsItems (concat (take k1 progs ++ drop (S k1) progs)))) as Pq.
  { rewrite <- opsItems_app. unfold opsItems. rewrite <- !flat_map_concat_map. by apply Permutation_flat_map. }
  rewrite Pq, fmap_app in ND. apply NoDup_app in ND as (_ & ND & _). apply (ND i2 O1).
  apply elem_of_list_fmap in O2 as (x & -> & Hx). apply elem_of_list_fmap_1.
  eapply opsItems_concat_elem; [|exact Hx]. apply elem_of_app.
  destruct (Nat.lt_ge_cases k2 k1).
  - left. apply elem_of_list_lookup. exists k2. by rewrite lookup_take.
  - right. apply elem_of_list_lookup. exists (k2 - S k1)%nat. rewrite lookup_drop.
    by replace (S k1 + (k2 - S k1))%nat with k2 by lia.
Qed.

(** ** Lookups while threads insert *)

Lemma snapshot_Inv n all g : CInv n all g ->
  exists items, (forall x, x ∈ items -> x ∈ all) /\ Inv n (gTable g) items.
Proof.
  intros I. exists (List.filter (fun x => bool_decide (x.1 ∈ stored (gTable g))) all).
  set (f := fun x : N * list N => bool_decide (x.1 ∈ stored (gTable g))).
  assert (forall x, x ∈ List.filter f all <-> x ∈ all /\ x.1 ∈ stored (gTable g)) as Hf.
  { intros x. rewrite !elem_of_list_In, filter_In. unfold f. by rewrite bool_decide_eq_true, elem_of_list_In. }
  split; [intros x Hx; by apply Hf|].
  assert (NoDup (stored (gTable g))) as NDs.
  { pose proof (ci_perm _ _ _ I) as P. pose proof (ci_nodup _ _ _ I) as ND. rewrite <- P in ND.
    by apply NoDup_app in ND as (? & _). }
  assert (NoDup (List.filter f all).*1) as NDi.
  { pose proof (ci_nodup _ _ _ I) as ND. clear -ND. induction all as [|x l IH]; [constructor|].
    rewrite fmap_cons in ND. apply NoDup_cons in ND as [N1 N2]. cbn [List.filter].
    destruct (f x); [|by apply IH]. rewrite fmap_cons. constructor; [|by apply IH].
    intros H. apply N1. apply elem_of_list_fmap in H as (y & Ey & Hy). rewrite Ey. apply elem_of_list_fmap_1.
    apply elem_of_list_In, filter_In in Hy as [Hy _]. by apply elem_of_list_In. }
  constructor.
  - apply I.
  - done.
  - pose proof (ci_items _ _ _ I) as It. pose proof (ci_rows _ _ _ I) as R.
    rewrite Forall_forall in It. rewrite Forall_forall in R.
    apply Forall_forall. intros [i row] Hx. apply Hf in Hx as [Ha Hs]. destruct (It _ Ha) as [V L].
    split; [done|]. split; [done|]. by apply R.
  - apply list.NoDup_Permutation; [done|done|]. intros i. split.
    + intros Hi. assert (i ∈ all.*1) as Ha by (rewrite <- (ci_perm _ _ _ I); set_solver).
      apply elem_of_list_fmap in Ha as (x & -> & Hx). apply elem_of_list_fmap_1. by apply Hf.
    + intros Hi. apply elem_of_list_fmap in Hi as (x & -> & Hx). by apply Hf.
Qed.

Lemma conc_find n num bins stash progs sched q : legalSize n num bins -> legalOps n num (concat progs) ->
  N.of_nat (length q) = num ->
  let c := gTable (runSched (start (fresh n num bins stash) progs) sched) in
  exists items r, (forall x, x ∈ items -> x ∈ opsItems (concat progs)) /\
    Permutation (storedIn c) items.*1 /\ find c q = Done r /\ answers items q r.
Proof.
  intros Hs Hl Lq c.
  pose proof (run_CInv n _ sched _ (start_CInv n num bins stash progs Hs Hl)) as I.
  destruct (snapshot_Inv _ _ _ I) as (items & Hi & Iv). fold c in Iv.
  destruct (run_num sched (start (fresh n num bins stash) progs)) as [E _]. fold c in E.
  destruct (find_spec n c items q Iv) as (r & Er & A); [by rewrite E|].
  exists items, r. split; [done|]. split; [rewrite storedIn_stored; apply Iv|]. done.
Qed.
