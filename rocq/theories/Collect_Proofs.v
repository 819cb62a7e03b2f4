From Verif Require Import Base Partition_Model Prty_Model Collect_Model.

Definition ends (l : list op) : list nat := concat (map (fun o => match o with End x => x | _ => [] end) l).
Lemma ends_app a b : ends (a ++ b) = ends a ++ ends b.
Proof. unfold ends. by rewrite map_app, concat_app. Qed.

(** ** Schedules *)

Lemma cRun_snoc sched t s : cRun (sched ++ [t]) s = andThen (cRun sched s) (fun s => cStep s t).
Proof. unfold cRun. by rewrite foldl_app. Qed.
Lemma run_inv (I : cstate -> Prop) s0 : I s0 -> (forall s t, I s -> exists s', cStep s t = Done s' /\ I s') -> forall sched, exists s, cRun sched s0 = Done s /\ I s.
Proof.
  intros H0 Hs sched. induction sched as [|t sched IH] using rev_ind; [by exists s0|].
  destruct IH as (s & Hr & Hi). destruct (Hs s t Hi) as (s' & Hst & Hi'). exists s'. by rewrite cRun_snoc, Hr.
Qed.
Lemma concat_insert_ends (ls : list (list op)) t o rest : ls !! t = Some (o :: rest) ->
  concat (map ends ls) ≡ₚ ends [o] ++ concat (map ends (<[t := rest]> ls)).
Proof.
  revert t. induction ls as [|l ls IH]; intros t H; [done|]. destruct t as [|t]; cbn in H |- *.
  - injection H as ->. change (o :: rest) with ([o] ++ rest). by rewrite ends_app, <- app_assoc.
  - rewrite (IH t H), !app_assoc. apply Permutation_app; [apply Permutation_app_comm|done].
Qed.
(** What is in the vector and what is still to be appended. *)
Lemma step_total s t s' : cStep s t = Done s' -> cVec s' ++ concat (map ends (cTodo s')) ≡ₚ cVec s ++ concat (map ends (cTodo s)).
Proof.
  unfold cStep. destruct (cTodo s !! t) as [[|o rest]|] eqn:E; [by intros [= ->]| |by intros [= ->]].
  pose proof (concat_insert_ends _ _ _ _ E) as Hp. destruct o as [| | |x].
  - destruct (cLock s); intros [= <-]; [done|]. cbn. by rewrite Hp.
  - intros [= <-]. cbn. by rewrite Hp.
  - destruct (cInside s); [done|]. intros [= <-]. cbn. by rewrite Hp.
  - intros [= <-]. cbn. rewrite Hp. unfold ends at 2. cbn. by rewrite app_nil_r, app_assoc.
Qed.
Lemma step_length s t s' : cStep s t = Done s' -> length (cTodo s') = length (cTodo s).
Proof.
  unfold cStep. destruct (cTodo s !! t) as [[|o rest]|] eqn:E; [by intros [= ->]| |by intros [= ->]].
  destruct o; [destruct (cLock s)| |destruct (cInside s)|]; intros [= <-]; cbn; rewrite ?insert_length; done.
Qed.
Lemma done_total s : cDone s -> concat (map ends (cTodo s)) = [].
Proof. unfold cDone. induction 1 as [|l ls -> _ IH]; [done|]. cbn. exact IH. Qed.

(** ** Changes under the lock *)

Inductive held : list op -> Prop := held_nil : held [] | held_cons l r : held r -> held (guarded l ++ r).
Lemma held_inv o r : held (o :: r) -> exists l r', o = Acquire /\ r = Begin :: End l :: Release :: r' /\ held r'.
Proof. intros H. inversion H; subst. eauto. Qed.
(** The rest of a section of the holder, with the thread inside. *)
Definition section (ins : option nat) (t : nat) (l : list op) : Prop :=
  (exists x r, held r /\ (l = Begin :: End x :: Release :: r /\ ins = None \/ l = End x :: Release :: r /\ ins = Some t)) \/ (exists r, held r /\ l = Release :: r /\ ins = None).
Definition lockInv (s : cstate) : Prop :=
  match cLock s with
  | None => cInside s = None /\ forall u l, cTodo s !! u = Some l -> held l
  | Some t => (exists l, cTodo s !! t = Some l /\ section (cInside s) t l) /\ forall u l, cTodo s !! u = Some l -> u <> t -> held l
  end.
Lemma insert_other (ls : list (list op)) t r u l : <[t := r]> ls !! u = Some l -> u = t /\ l = r \/ u <> t /\ ls !! u = Some l.
Proof.
  intros H. destruct (decide (u = t)) as [->|Hne]; [left|right; by rewrite list_lookup_insert_ne in H].
  split; [done|]. assert (t < length ls)%nat as Hlt by (apply lookup_lt_Some in H; by rewrite insert_length in H). rewrite list_lookup_insert in H by done. by injection H.
Qed.
Lemma insert_same (ls : list (list op)) t r l : ls !! t = Some l -> <[t := r]> ls !! t = Some r.
Proof. intros H. apply list_lookup_insert. by eapply lookup_lt_Some. Qed.
Lemma lock_step s t : lockInv s -> exists s', cStep s t = Done s' /\ lockInv s'.
Proof.
  intros HI. unfold cStep. destruct (cTodo s !! t) as [[|o rest]|] eqn:E; [by exists s| |by exists s].
  unfold lockInv in HI. destruct (cLock s) as [h|] eqn:EL.
  - destruct HI as [(l & Hl & Hsec) Hoth]. destruct (decide (t = h)) as [->|Hne].
    + rewrite E in Hl. injection Hl as <-. destruct Hsec as [(x & r & Hr & [[Hs Hin]|[Hs Hin]])|(r & Hr & Hs & Hin)]; injection Hs as -> ->; rewrite ?Hin.
      * eexists. split; [done|]. unfold lockInv. cbn. split.
        { exists (End x :: Release :: r). split; [by eapply insert_same|]. left. exists x, r. split; [done|]. by right. }
        intros u l Hu Hne. apply insert_other in Hu as [[-> _]|[_ Hu]]; [done|]. by eapply Hoth.
      * eexists. split; [done|]. unfold lockInv. cbn. split.
        { exists (Release :: r). split; [by eapply insert_same|]. right. by exists r. }
        intros u l Hu Hne. apply insert_other in Hu as [[-> _]|[_ Hu]]; [done|]. by eapply Hoth.
      * eexists. split; [done|]. unfold lockInv. cbn. split; [done|]. intros u l Hu. apply insert_other in Hu as [[-> ->]|[Hne Hu]]; [done|]. by eapply Hoth.
    + pose proof (Hoth _ _ E Hne) as Hh. apply held_inv in Hh as (x & r & -> & -> & Hr). exists s. split; [done|]. unfold lockInv. rewrite EL. split; [by exists l|done].
  - destruct HI as [Hin Hall]. pose proof (Hall _ _ E) as Hh. apply held_inv in Hh as (x & r & -> & -> & Hr). eexists. split; [done|]. unfold lockInv. cbn. split.
    + exists (Begin :: End x :: Release :: r). split; [by eapply insert_same|]. left. exists x, r. split; [done|]. by left.
    + intros u l Hu Hne. apply insert_other in Hu as [[-> _]|[_ Hu]]; [done|]. by eapply Hall.
Qed.
(** While a thread has something to do, some thread can go on. *)
Lemma lock_progress s : lockInv s -> ~ cDone s -> exists t s', cStep s t = Done s' /\ (length (concat (cTodo s')) < length (concat (cTodo s)))%nat.
Proof.
  intros HI Hnd.
  assert (forall (ls : list (list op)) t o r, ls !! t = Some (o :: r) -> (length (concat (<[t := r]> ls)) < length (concat ls))%nat) as Hdec.
  { induction ls as [|l ls IH]; intros t o r H; [done|]. destruct t as [|t].
    - cbn in H. injection H as ->. cbn [insert list_insert concat]. rewrite !app_length. cbn [length]. lia.
    - change ((l :: ls) !! S t) with (ls !! t) in H. specialize (IH _ _ _ H). change (<[S t := r]> (l :: ls)) with (l :: <[t := r]> ls). cbn [concat]. rewrite !app_length. lia. }
  assert (exists t o r, cTodo s !! t = Some (o :: r)) as (t & o & r & E).
  { clear -Hnd. unfold cDone in Hnd. induction (cTodo s) as [|[|o r] ls IH]; [by destruct Hnd; constructor| |by exists 0%nat, o, r].
    destruct IH as (t & o & r & H); [intros H; apply Hnd; by constructor|]. by exists (S t), o, r. }
  unfold lockInv in HI. destruct (cLock s) as [h|] eqn:EL.
  - destruct HI as [(l & Hl & Hsec) _]. exists h. unfold cStep. rewrite Hl.
    destruct Hsec as [(x & r' & Hr & [[-> Hin]|[-> Hin]])|(r' & Hr & -> & Hin)]; rewrite ?Hin; (eexists; split; [done|]); cbn [cTodo]; exact (Hdec _ _ _ _ Hl).
  - destruct HI as [Hin Hall]. pose proof (Hall _ _ E) as Hh. apply held_inv in Hh as (x & r' & -> & -> & Hr). exists t. unfold cStep. rewrite E, EL.
    eexists; split; [done|]. cbn [cTodo]. exact (Hdec _ _ _ _ E).
Qed.
Lemma held_concat ws : held (concat (map guarded ws)).
Proof. induction ws as [|w ws IH]; [constructor|]. cbn [map concat]. by constructor. Qed.
Lemma ends_guarded ws : ends (concat (map guarded ws)) = concat ws.
Proof. induction ws as [|w ws IH]; [done|]. cbn [map concat]. rewrite ends_app, IH. unfold ends. cbn. by rewrite app_nil_r. Qed.

Lemma locked_all v scripts sched : Forall held scripts -> exists s, cRun sched (cStart v scripts) = Done s /\
  (cDone s -> cVec s ≡ₚ v ++ concat (map ends scripts)) /\
  (~ cDone s -> exists t s', cStep s t = Done s' /\ (length (concat (cTodo s')) < length (concat (cTodo s)))%nat).
Proof.
  intros Hh. destruct (run_inv (fun s => lockInv s /\ cVec s ++ concat (map ends (cTodo s)) ≡ₚ v ++ concat (map ends scripts)) (cStart v scripts)) with (sched := sched) as (s & Hr & Hi & Ht).
  - split; [|done]. split; [done|]. intros u l Hu. rewrite Forall_lookup in Hh. by eapply Hh.
  - intros s t [Hi Ht]. destruct (lock_step s t Hi) as (s' & Hs & Hi'). exists s'. split; [done|]. split; [done|]. by rewrite (step_total _ _ _ Hs).
  - exists s. split; [done|]. split; [|by apply lock_progress]. intros Hd. by rewrite (done_total _ Hd), app_nil_r in Ht.
Qed.

(** ** One thread without a lock *)

Inductive open : list op -> Prop := open_nil : open [] | open_cons l r : open r -> open (bare l ++ r).
Lemma open_concat ws : open (concat (map bare ws)).
Proof. induction ws as [|w ws IH]; [constructor|]. cbn [map concat]. by constructor. Qed.
Lemma ends_bare ws : ends (concat (map bare ws)) = concat ws.
Proof. induction ws as [|w ws IH]; [done|]. cbn [map concat]. rewrite ends_app, IH. unfold ends. cbn. by rewrite app_nil_r. Qed.
Definition soloInv (v : list nat) (c : nat) (all : list nat) (s : cstate) : Prop :=
  cLock s = None /\ (forall u l, cTodo s !! u = Some l -> u <> c -> l = []) /\
  (cTodo s !! c = None /\ cVec s = v /\ cInside s = None /\ all = [] \/ exists l, cTodo s !! c = Some l /\ cVec s ++ ends l = v ++ all /\
    (open l /\ cInside s = None \/ exists x r, open r /\ l = End x :: r /\ cInside s = Some c)).
Lemma open_inv o r : open (o :: r) -> exists l r', o = Begin /\ r = End l :: r' /\ open r'.
Proof. intros H. inversion H; subst. eauto. Qed.
Lemma solo_step v c all s t : soloInv v c all s -> exists s', cStep s t = Done s' /\ soloInv v c all s'.
Proof.
  intros (HL & Hoth & Hc). unfold cStep. destruct (cTodo s !! t) as [[|o rest]|] eqn:E; [by exists s| |by exists s].
  destruct (decide (t = c)) as [->|Hne]; [|by pose proof (Hoth _ _ E Hne)].
  destruct Hc as [(Hc & _)|(l & Hl & Hv & Hc)]; [congruence|]. rewrite E in Hl. injection Hl as <-.
  destruct Hc as [[Ho Hin]|(x & r & Ho & [= -> ->] & Hin)].
  - apply open_inv in Ho as (x & r & -> & -> & Hr). rewrite Hin. eexists. split; [done|]. split; [done|]. split.
    + intros u l Hu Hne. cbn in Hu. apply insert_other in Hu as [[-> _]|[_ Hu]]; [done|]. by eapply Hoth.
    + right. exists (End x :: r). cbn. split; [by eapply insert_same|]. split; [exact Hv|]. right. by exists x, r.
  - eexists. split; [done|]. split; [done|]. split.
    + intros u l Hu Hne. cbn in Hu. apply insert_other in Hu as [[-> _]|[_ Hu]]; [done|]. by eapply Hoth.
    + right. exists r. cbn. split; [by eapply insert_same|]. split; [|by left]. rewrite <- app_assoc. exact Hv.
Qed.
Lemma solo_all v scripts c ws sched : (forall u l, scripts !! u = Some l -> u <> c -> l = []) -> scripts !! c = Some (concat (map bare ws)) ->
  exists s, cRun sched (cStart v scripts) = Done s /\ (cDone s -> cVec s = v ++ concat ws).
Proof.
  intros Hoth Hc. destruct (run_inv (soloInv v c (concat ws)) (cStart v scripts)) with (sched := sched) as (s & Hr & Hi).
  - split; [done|]. split; [done|]. right. eexists. split; [exact Hc|]. split; [by rewrite ends_bare|]. left. split; [apply open_concat|done].
  - intros s t. apply solo_step.
  - exists s. split; [done|]. intros Hd. destruct Hi as (_ & _ & [(Hn & -> & _ & ->)|(l & Hl & Hv & _)]).
    + by rewrite app_nil_r.
    + unfold cDone in Hd. rewrite Forall_lookup in Hd. apply Hd in Hl. subst l. cbn in Hv. by rewrite app_nil_r in Hv.
Qed.
(** ** Several threads without a lock *)

Lemma race v scripts t t' l l' : t <> t' -> scripts !! t = Some (Begin :: l) -> scripts !! t' = Some (Begin :: l') -> cRun [t; t'] (cStart v scripts) = UB.
Proof.
  intros Hne Ht Ht'. assert (cStep (cStart v scripts) t = Done (mkC v None (Some t) (<[t := l]> scripts))) as H1 by (unfold cStep; cbn [cTodo cStart]; by rewrite Ht).
  change (andThen (cStep (cStart v scripts) t) (fun s => cStep s t') = UB). rewrite H1. cbn [andThen obind]. unfold cStep. cbn [cTodo]. rewrite list_lookup_insert_ne by done. by rewrite Ht'.
Qed.

(** ** The protocols *)

Lemma merge_once v ls sched : exists s, cRun sched (cStart v (map mergeOnce ls)) = Done s /\ (cDone s -> cVec s ≡ₚ v ++ concat ls) /\
  (~ cDone s -> exists t s', cStep s t = Done s' /\ (length (concat (cTodo s')) < length (concat (cTodo s)))%nat).
Proof.
  assert (concat (map ends (map mergeOnce ls)) = concat ls) as <-.
  { induction ls as [|l ls IH]; [done|]. cbn [map concat]. rewrite IH. destruct l; [done|]. unfold ends. cbn. by rewrite app_nil_r. }
  apply locked_all. rewrite Forall_fmap, Forall_forall. intros l _. cbn. destruct l as [|x l]; [constructor|]. change (mergeOnce (x :: l)) with (guarded (x :: l) ++ []). repeat constructor.
Qed.
Lemma merge_always v ls sched : exists s, cRun sched (cStart v (map mergeAlways ls)) = Done s /\ (cDone s -> cVec s ≡ₚ v ++ concat ls) /\
  (~ cDone s -> exists t s', cStep s t = Done s' /\ (length (concat (cTodo s')) < length (concat (cTodo s)))%nat).
Proof.
  assert (concat (map ends (map mergeAlways ls)) = concat ls) as <-.
  { induction ls as [|l ls IH]; [done|]. cbn [map concat]. rewrite IH. unfold ends. cbn. by rewrite app_nil_r. }
  apply locked_all. rewrite Forall_fmap, Forall_forall. intros l _. cbn. change (mergeAlways l) with (guarded l ++ []). repeat constructor.
Qed.
Lemma first_merge v ls sched : (1 <= length ls)%nat -> exists s, cRun sched (cStart v (firstPushes ls)) = Done s /\ (cDone s -> firstMerge ls s = v ++ concat ls).
Proof.
  intros Hl. destruct ls as [|l ls]; [cbn in Hl; lia|]. destruct (solo_all v (firstPushes (l :: ls)) 0 (map (fun x => [x]) l) sched) as (s & Hr & Hd).
  - intros u x Hu Hne. unfold firstPushes in Hu. rewrite list_lookup_imap in Hu. destruct u; [done|]. destruct ((l :: ls) !! S u); [|done]. by injection Hu.
  - unfold firstPushes. rewrite list_lookup_imap. cbn. by rewrite map_map.
  - exists s. split; [done|]. intros H. unfold firstMerge. rewrite (Hd H). cbn. rewrite <- app_assoc. f_equal. f_equal. clear. induction l as [|x l IH]; [done|]. cbn. by f_equal.
Qed.

Lemma pushes_locked l : concat (map (fun x => guarded [x]) l) = concat (map guarded (map (fun x => [x]) l)).
Proof. by rewrite map_map. Qed.
Lemma pushes_bare l : concat (map (fun x => bare [x]) l) = concat (map bare (map (fun x => [x]) l)).
Proof. by rewrite map_map. Qed.
Lemma singles (l : list nat) : concat (map (fun x => [x]) l) = l.
Proof. induction l as [|x l IH]; [done|]. cbn. by f_equal. Qed.
Lemma collect_pushes (f : list nat -> list op) (b : bool) v T ls sched :
  (forall l, f l = concat (map (fun x => if (b && (1 <? T)%nat)%bool then guarded [x] else bare [x]) l)) -> length ls = T -> (b = true \/ (T <= 1)%nat) ->
  exists s, cRun sched (cStart v (map f ls)) = Done s /\ (cDone s -> cVec s ≡ₚ v ++ concat ls).
Proof.
  intros Hf HT Hok. destruct (decide (1 < T)%nat) as [H1|H1].
  - destruct Hok as [->|?]; [|lia]. assert (forall l, f l = concat (map guarded (map (fun x => [x]) l))) as Hf'.
    { intros l. rewrite Hf. apply Nat.ltb_lt in H1. rewrite H1. apply pushes_locked. }
    destruct (locked_all v (map f ls) sched) as (s & Hr & Hd & _).
    + rewrite Forall_fmap, Forall_forall. intros l _. cbn. rewrite Hf'. apply held_concat.
    + exists s. split; [done|]. intros H. rewrite (Hd H). f_equiv. rewrite map_map. rewrite (map_ext _ (fun l => l)); [by rewrite map_id|]. intros l. by rewrite Hf', ends_guarded, singles.
  - assert (forall l, f l = concat (map bare (map (fun x => [x]) l))) as Hf'.
    { intros l. rewrite Hf. apply Nat.ltb_nlt in H1. rewrite H1, andb_false_r. apply pushes_bare. }
    destruct ls as [|l ls].
    + exists (cStart v []). split; [|by intros _; rewrite app_nil_r]. clear. cbn [map]. induction sched as [|t sched IH] using rev_ind; [done|]. rewrite cRun_snoc, IH. done.
    + destruct ls; [|cbn in HT; lia]. destruct (solo_all v (map f [l]) 0 (map (fun x => [x]) l) sched) as (s & Hr & Hd).
      * intros [|u] x Hu Hne; [done|]. by destruct u.
      * cbn. by rewrite Hf'.
      * exists s. split; [done|]. intros H. rewrite (Hd H), singles. cbn. by rewrite app_nil_r.
Qed.
Lemma prty_collect ord step hb T n2 es gh scripts l v sched : prtyCollect ord step hb T n2 es gh = Some scripts -> matchAll ord step hb T n2 es gh = Done l ->
  (8 <= hb)%nat \/ (T <= 1)%nat -> exists s, cRun sched (cStart v scripts) = Done s /\ (cDone s -> cVec s ≡ₚ v ++ l).
Proof.
  unfold prtyCollect, matchAll. destruct (mapM _ _) as [ls|] eqn:E; [|done]. cbn. intros [= <-] [= <-] Hok.
  apply (collect_pushes _ (8 <=? hb)%nat v T).
  - intros x. done.
  - apply mapM_Some_1, Forall2_length in E. by rewrite <- E, seq_length.
  - destruct Hok as [H|H]; [left; by apply Nat.leb_le|by right].
Qed.
Lemma prty_race hb T ls v t t' x l x' l' : (hb < 8)%nat -> t <> t' -> ls !! t = Some (x :: l) -> ls !! t' = Some (x' :: l') ->
  cRun [t; t'] (cStart v (map (prtyPushes hb T) ls)) = UB.
Proof.
  intros Hb Hne Ht Ht'. apply Nat.leb_gt in Hb.
  assert (forall y m, prtyPushes hb T (y :: m) = Begin :: End [y] :: prtyPushes hb T m) as Hp by (intros; unfold prtyPushes; cbn [map concat]; rewrite Hb; done).
  apply (race v _ t t' (End [x] :: prtyPushes hb T l) (End [x'] :: prtyPushes hb T l') Hne); rewrite list_lookup_fmap; [rewrite Ht|rewrite Ht']; rewrite <- Hp; done.
Qed.
