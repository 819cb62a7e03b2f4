(** Proofs about the places of the masks in PRTY. *)
From Verif Require Import Base Ecdh_Model Balanced_Model Prty_Model PrtyPlace_Model PrtyPlace_Spec.
From Verif Require Ecdh_Proofs.

Lemma upd_perm {A B} (f : A -> list B) l t x : l !! t = Some x -> exists rest, concat (map f l) ≡ₚ f x ++ rest /\ forall y, concat (map f (<[t := y]> l)) ≡ₚ f y ++ rest.
Proof.
  revert t. induction l as [|a l IH]; intros t E; [done|]. destruct t as [|t]; cbn in E.
  - injection E as ->. by exists (concat (map f l)).
  - destruct (IH t E) as (rest & E1 & E2). exists (f a ++ rest). split; [|intros y]; cbn; [rewrite E1|rewrite E2]; rewrite !app_assoc; apply Permutation_app_tail, Permutation_app_comm.
Qed.

Definition pend (h : N) (th : thread) : list N := masksOf h (match th.1 with Put _ => tail th.2 | _ => th.2 end).

(** [bt]: the thread that has read a counter and not yet written it. *)
Record inv (n : nat) (all : list (N * N)) (bt : option nat) (s : pstate) (asg : N -> list N) : Prop := {
  i_len : forall h, length (asg h) = psIdx s h;
  i_perm : forall h, asg h ++ concat (map (pend h) (psThr s)) ≡ₚ masksOf h all;
  i_gh : forall h, length (psGh s h) = n;
  i_zero : forall h r, (psIdx s h <= r < n)%nat -> psGh s h !! r = Some 0;
  i_set : forall h r m, asg h !! r = Some m -> psGh s h !! r = Some m \/ exists t l, psThr s !! t = Some (Put r, (h, m) :: l);
  i_put : forall t r h m l, psThr s !! t = Some (Put r, (h, m) :: l) -> asg h !! r = Some m;
  i_bump : forall t r h m l, psThr s !! t = Some (Bump r, (h, m) :: l) -> bt = Some t /\ r = psIdx s h
}.

Lemma inv_init n work : inv n (concat work) None (placeInit n work) (fun _ => []).
Proof.
  split; cbn.
  - done.
  - intros h. induction work as [|w work IH]; [done|]. cbn. unfold pend at 1. cbn. unfold masksOf in *. rewrite filter_app, map_app. by apply Permutation_app_head.
  - intros h. by rewrite replicate_length.
  - intros h r Hr. apply lookup_replicate. lia.
  - intros h r m E. done.
  - intros t r h m l E. apply list_lookup_fmap_Some in E as (w & _ & E'). discriminate E'.
  - intros t r h m l E. apply list_lookup_fmap_Some in E as (w & _ & E'). discriminate E'.
Qed.

Lemma inv_step n all bt s asg t : (forall h, (length (masksOf h all) <= n)%nat) -> inv n all bt s asg -> (forall t', bt = Some t' -> t' = t) ->
  exists s' asg' bt', placeStep s t = Done s' /\ inv n all bt' s' asg' /\
    (forall t', bt' = Some t' -> t' = t /\ exists e l, psThr s !! t = Some (Fetch, e :: l)).
Proof.
  intros Hn I Hb. unfold placeStep. destruct (psThr s !! t) as [[ph [|[h m] l]]|] eqn:E.
  { exists s, asg, None. split; [done|]. split; [|done]. destruct I. split; try done. intros t' r h m l E'. destruct (i_bump0 _ _ _ _ _ E') as [B _]. apply Hb in B as ->. congruence. }
  2: { exists s, asg, None. split; [done|]. split; [|done]. destruct I. split; try done. intros t' r h m l E'. destruct (i_bump0 _ _ _ _ _ E') as [B _]. apply Hb in B as ->. congruence. }
  assert (t < length (psThr s))%nat as Lt by (by eapply lookup_lt_Some).
  assert (forall t' th, t' <> t -> <[t:=th]> (psThr s) !! t' = psThr s !! t') as Ne by (intros t' th D; by apply list_lookup_insert_ne).
  assert (forall th, <[t:=th]> (psThr s) !! t = Some th) as Eq by (intros th; by apply list_lookup_insert).
  destruct ph as [|r|r].
  - eexists _, asg, (Some t). split; [done|]. split; [|intros t' [= <-]; eauto]. destruct I. split; cbn; try done.
    + intros h'. rewrite <- (i_perm0 h'). apply Permutation_app_head. destruct (upd_perm (pend h') (psThr s) t _ E) as (rest & R1 & R2). by rewrite R1, R2.
    + intros h' r' m' E'. destruct (i_set0 h' r' m' E') as [|(t' & l' & E2)]; [by left|right]. exists t', l'. rewrite Ne; [done|]. intros ->. congruence.
    + intros t' r' h' m' l' E'. destruct (decide (t' = t)) as [->|D]; [rewrite Eq in E'; discriminate E'|]. rewrite Ne in E' by done. by eapply i_put0.
    + intros t' r' h' m' l' E'. destruct (decide (t' = t)) as [->|D]; [rewrite Eq in E'; by injection E' as <- <- <- <-|]. rewrite Ne in E' by done. destruct (i_bump0 _ _ _ _ _ E') as [B _]. by apply Hb in B.
  - destruct (i_bump _ _ _ _ _ I _ _ _ _ _ E) as [-> ->].
    eexists _, (fun h' => if h' =? h then asg h ++ [m] else asg h'), None. split; [done|]. split; [|done]. destruct I.
    assert (psIdx s h < n)%nat as Hlt.
    { specialize (i_perm0 h). apply Permutation_length in i_perm0. rewrite app_length, i_len0 in i_perm0. specialize (Hn h).
      destruct (upd_perm (pend h) (psThr s) t _ E) as (rest & R1 & _). apply Permutation_length in R1. rewrite app_length in R1. assert (length (pend h (Bump (psIdx s h), (h, m) :: l)) = Datatypes.S (length (masksOf h l))) as EL by (unfold pend, masksOf; cbn [fst snd]; by rewrite filter_cons_True). lia. }
    split; cbn; unfold setAt.
    + intros h'. destruct (N.eqb_spec h' h) as [->|]; [|done]. rewrite app_length, i_len0. done.
    + intros h'. rewrite <- (i_perm0 h'). destruct (upd_perm (pend h') (psThr s) t _ E) as (rest & R1 & R2). rewrite R1, R2. unfold pend. cbn [fst snd tail]. unfold masksOf.
      destruct (N.eqb_spec h' h) as [->|D].
      * rewrite filter_cons_True by done. cbn [map]. rewrite <- app_assoc. done.
      * rewrite filter_cons_False by (cbn; congruence). done.
    + done.
    + intros h' r' Hr'. apply i_zero0. destruct (N.eqb_spec h' h) as [->|]; lia.
    + intros h' r' m' E'. destruct (N.eqb_spec h' h) as [->|D].
      * apply lookup_app_Some in E' as [E'|[G E']].
        -- destruct (i_set0 h r' m' E') as [|(t' & l' & E2)]; [by left|right]. exists t', l'. rewrite Ne; [done|]. intros ->. congruence.
        -- apply list_lookup_singleton_Some in E' as [E0 <-]. right. exists t, l. rewrite Eq. do 3 f_equal. rewrite i_len0 in *. lia.
      * destruct (i_set0 h' r' m' E') as [|(t' & l' & E2)]; [by left|right]. exists t', l'. rewrite Ne; [done|]. intros ->. congruence.
    + intros t' r' h' m' l' E'. destruct (decide (t' = t)) as [->|D].
      * rewrite Eq in E'. injection E' as <- <- <- <-. rewrite N.eqb_refl, <- (i_len0 h). by apply list_lookup_middle.
      * rewrite Ne in E' by done. pose proof (i_put0 _ _ _ _ _ E') as E2. destruct (N.eqb_spec h' h) as [->|]; [|done]. by apply lookup_app_l_Some.
    + intros t' r' h' m' l' E'. destruct (decide (t' = t)) as [->|D]; [rewrite Eq in E'; discriminate E'|]. rewrite Ne in E' by done. destruct (i_bump0 _ _ _ _ _ E') as [B _]. naive_solver.
  - pose proof (i_put _ _ _ _ _ I _ _ _ _ _ E) as Er. assert (r < n)%nat as Hlt.
    { destruct I. specialize (i_perm0 h). apply Permutation_length in i_perm0. rewrite app_length in i_perm0. specialize (Hn h). apply lookup_lt_Some in Er. lia. }
    rewrite (i_gh _ _ _ _ _ I). destruct (Nat.ltb_spec r n); [|lia]. eexists _, asg, None. split; [done|]. split; [|done]. destruct I. split; cbn; unfold setAt.
    + done.
    + intros h'. rewrite <- (i_perm0 h'). apply Permutation_app_head. destruct (upd_perm (pend h') (psThr s) t _ E) as (rest & R1 & R2). by rewrite R1, R2.
    + intros h'. destruct (N.eqb_spec h' h) as [->|]; [|done]. by rewrite insert_length.
    + intros h' r' Hr'. destruct (N.eqb_spec h' h) as [->|]; [|by apply i_zero0]. rewrite list_lookup_insert_ne; [by apply i_zero0|]. intros ->. apply lookup_lt_Some in Er. rewrite i_len0 in Er. lia.
    + intros h' r' m' E'. destruct (N.eqb_spec h' h) as [->|D].
      * destruct (decide (r' = r)) as [->|Dr]; [left; rewrite list_lookup_insert by (by rewrite i_gh0); congruence|].
        rewrite list_lookup_insert_ne by done. destruct (i_set0 h r' m' E') as [|(t' & l' & E2)]; [by left|right]. exists t', l'. rewrite Ne; [done|]. intros ->. rewrite E in E2. congruence.
      * destruct (i_set0 h' r' m' E') as [|(t' & l' & E2)]; [by left|right]. exists t', l'. rewrite Ne; [done|]. intros ->. rewrite E in E2. congruence.
    + intros t' r' h' m' l' E'. destruct (decide (t' = t)) as [->|D]; [rewrite Eq in E'; discriminate E'|]. rewrite Ne in E' by done. by eapply i_put0.
    + intros t' r' h' m' l' E'. destruct (decide (t' = t)) as [->|D]; [rewrite Eq in E'; discriminate E'|]. rewrite Ne in E' by done. destruct (i_bump0 _ _ _ _ _ E') as [B _]. by apply Hb in B.
Qed.

Lemma placeRun_cons t sched s s' : placeStep s t = Done s' -> placeRun (t :: sched) s = placeRun sched s'.
Proof. intros E. unfold placeRun. cbn. by rewrite E. Qed.

Lemma run_inv n all sched : (forall h, (length (masksOf h all) <= n)%nat) -> forall bt s asg, inv n all bt s asg -> (forall t', bt = Some t' -> match head sched with Some t => t' = t | None => True end) -> atOnce sched s ->
  exists s' asg' bt', placeRun sched s = Done s' /\ inv n all bt' s' asg'.
Proof.
  intros Hn. induction sched as [|t sched IH]; intros bt s asg I Hb HA; [by exists s, asg, bt|]. cbn [atOnce head] in *.
  destruct (inv_step n all bt s asg t Hn I Hb) as (s1 & asg1 & bt1 & E1 & I1 & B1). rewrite E1 in HA. destruct HA as [HA HA'].
  destruct (IH bt1 s1 asg1 I1) as (s2 & asg2 & bt2 & E2 & I2); [|done|].
  - intros t' B. destruct (B1 t' B) as (-> & e & l & Et). rewrite Et in HA. destruct (head sched); [by symmetry|done].
  - exists s2, asg2, bt2. split; [|done]. by rewrite (placeRun_cons _ _ _ _ E1).
Qed.

Lemma inv_ext n all bt s s' asg : inv n all bt s asg -> psThr s' = psThr s -> (forall h, psIdx s' h = psIdx s h) -> (forall h, psGh s' h = psGh s h) -> inv n all bt s' asg.
Proof.
  intros [] HT HX HG. split; intros.
  - by rewrite HX.
  - by rewrite HT.
  - by rewrite HG.
  - rewrite HG. apply i_zero0. by rewrite <- HX.
  - rewrite HG, HT. by apply i_set0.
  - rewrite HT in *. by eapply i_put0.
  - rewrite HT, HX in *. by eapply i_bump0.
Qed.

Lemma inv_done n all bt s asg : (forall h, (length (masksOf h all) <= n)%nat) -> inv n all bt s asg -> placeDone s ->
  forall h, exists taken, taken ≡ₚ masksOf h all /\ psGh s h = taken ++ replicate (n - length taken) 0.
Proof.
  intros Hn I HD h. exists (asg h). destruct I. assert (concat (map (pend h) (psThr s)) = []) as EP.
  { clear -HD. assert (forall th, th ∈ psThr s -> th.2 = []) as H by (intros th (t & Ht)%elem_of_list_lookup; by eapply HD). clear HD. induction (psThr s) as [|[ph l] thr IH]; [done|]. cbn.
    rewrite IH by (intros th Hth; apply H; by right). specialize (H (ph, l) ltac:(left)). cbn in H. subst l. unfold pend. cbn. by destruct ph. }
  pose proof (i_perm0 h) as HP. rewrite EP, app_nil_r in HP. split; [done|].
  pose proof (Permutation_length HP) as HL. specialize (Hn h). apply list_eq. intros r. destruct (decide (r < length (asg h))%nat) as [Hr|Hr].
  - rewrite lookup_app_l by done. destruct (lookup_lt_is_Some_2 _ _ Hr) as [m Hm]. rewrite Hm. destruct (i_set0 h r m Hm) as [|(t & l & Et)]; [done|]. apply HD in Et. done.
  - rewrite lookup_app_r by lia. destruct (decide (r < n)%nat) as [Hn'|Hn'].
    + rewrite i_zero0 by (rewrite <- i_len0; lia). symmetry. apply lookup_replicate. split; [done|lia].
    + rewrite !lookup_ge_None_2; [done|rewrite replicate_length; lia|rewrite i_gh0; lia].
Qed.

Lemma place_all n work sched : (forall h, (length (masksOf h (concat work)) <= n)%nat) -> atOnce sched (placeInit n work) ->
  exists s, placeRun sched (placeInit n work) = Done s /\
    (placeDone s -> forall h, exists taken, taken ≡ₚ masksOf h (concat work) /\ psGh s h = taken ++ replicate (n - length taken) 0).
Proof.
  intros Hn HA. destruct (run_inv n (concat work) sched Hn None (placeInit n work) (fun _ => []) (inv_init n work) ltac:(done) HA) as (s & asg & bt & E & I).
  exists s. split; [done|]. by apply (inv_done n _ bt s asg).
Qed.

(** ** A lost mask *)

Definition idle (s : pstate) : Prop := forall t th, psThr s !! t = Some th -> th.1 = Fetch.
Definition todo (s : pstate) : nat := sum_list_with (fun th : thread => length th.2) (psThr s).

Lemma sum_insert {A} (f : A -> nat) l t x y : l !! t = Some x -> (sum_list_with f (<[t := y]> l) + f x = sum_list_with f l + f y)%nat.
Proof. revert t. induction l as [|a l IH]; intros t E; [done|]. destruct t as [|t]; cbn [lookup list_lookup] in E; [injection E as ->; change (<[0%nat := y]> (x :: l)) with (y :: l); cbn [sum_list_with]; lia|].
  specialize (IH t E). change (<[Datatypes.S t := y]> (a :: l)) with (a :: <[t := y]> l). cbn [sum_list_with]. lia.
Qed.

Lemma finish n all : (forall h, (length (masksOf h all) <= n)%nat) -> forall k s asg, todo s = k -> idle s -> inv n all None s asg ->
  exists sched s', atOnce sched s /\ placeRun sched s = Done s' /\ placeDone s'.
Proof.
  intros Hn k. induction k as [|k IH]; intros s asg Hk HI I.
  { exists [], s. split; [done|]. split; [done|]. intros t th Ht. unfold todo in Hk. assert (length th.2 = 0)%nat; [|by destruct th.2].
    clear -Hk Ht. revert t Ht. induction (psThr s) as [|a l IH]; intros t Ht; [done|]. cbn in Hk. destruct t; cbn in Ht; [injection Ht as ->; lia|]. eapply IH; [lia|done]. }
  assert (exists t e l, psThr s !! t = Some (Fetch, e :: l)) as (t & [h m] & l & Et).
  { unfold todo in Hk. assert (exists t th, psThr s !! t = Some th /\ th.2 <> []) as (t & [ph l] & Ht & Hne).
    { clear -Hk. revert Hk. induction (psThr s) as [|[ph l] thr IH]; intros Hk; [done|]. destruct l as [|e l]; [|by exists O, (ph, e :: l)]. cbn in Hk. destruct (IH Hk) as (t & th & H1 & H2). by exists (Datatypes.S t), th. }
    pose proof (HI _ _ Ht) as E. cbn in E. subst ph. destruct l as [|e l]; [done|]. by exists t, e, l. }
  assert (t < length (psThr s))%nat as Lt by (by eapply lookup_lt_Some).
  destruct (inv_step n all None s asg t Hn I ltac:(done)) as (s1 & asg1 & bt1 & E1 & I1 & B1). pose proof E1 as E1'. unfold placeStep in E1'. rewrite Et in E1'. injection E1' as E1'.
  assert (psThr s1 !! t = Some (Bump (psIdx s h), (h, m) :: l)) as Et1 by (rewrite <- E1'; cbn; by apply list_lookup_insert).
  destruct (inv_step n all bt1 s1 asg1 t Hn I1) as (s2 & asg2 & bt2 & E2 & I2 & B2); [intros t' B; by apply B1 in B as [-> _]|].
  pose proof E2 as E2'. unfold placeStep in E2'. rewrite Et1 in E2'. injection E2' as E2'.
  assert (psThr s2 !! t = Some (Put (psIdx s h), (h, m) :: l)) as Et2 by (rewrite <- E2'; cbn; apply list_lookup_insert; rewrite <- E1'; cbn; by rewrite insert_length).
  destruct (inv_step n all bt2 s2 asg2 t Hn I2) as (s3 & asg3 & bt3 & E3 & I3 & B3); [intros t' B; by apply B2 in B as [-> _]|].
  pose proof E3 as E3'. unfold placeStep in E3'. rewrite Et2 in E3'. destruct (_ <? _)%nat; [|done]. injection E3' as E3'.
  assert (psThr s3 = <[t := (Fetch, l)]> (psThr s)) as Thr. { rewrite <- E3'. cbn. rewrite <- E2'. cbn. rewrite <- E1'. cbn. by rewrite !list_insert_insert. }
  assert (bt3 = None) as ->. { destruct bt3 as [t'|]; [|done]. destruct (B3 t' eq_refl) as (_ & e & l' & E). congruence. }
  destruct (IH s3 asg3) as (sched & s' & HA & HR & HD).
  - unfold todo at 1. rewrite Thr. pose proof (sum_insert (fun th : thread => length th.2) (psThr s) t _ (Fetch, l) Et) as H. cbn [snd length] in H. set (a := sum_list_with _ (<[_ := _]> _)) in *. fold (todo s) in H. rewrite Hk in H. lia.
  - intros t' th Ht'. rewrite Thr in Ht'. destruct (decide (t' = t)) as [->|]; [rewrite list_lookup_insert in Ht' by done; by injection Ht' as <-|]. rewrite list_lookup_insert_ne in Ht' by done. by eapply HI.
  - done.
  - exists (t :: t :: t :: sched), s'. split; [|split; [|done]].
    + cbn [atOnce head]. rewrite Et, E1. split; [done|]. rewrite Et1, E2. split; [done|]. rewrite Et2, E3. split; [done|done].
    + by rewrite (placeRun_cons _ _ _ _ E1), (placeRun_cons _ _ _ _ E2), (placeRun_cons _ _ _ _ E3).
Qed.

Lemma placeRun_app a b s s' : placeRun a s = Done s' -> placeRun (a ++ b) s = placeRun b s'.
Proof. intros E. unfold placeRun in *. by rewrite foldl_app, E. Qed.

Lemma place_lost n h m1 m2 l1 l2 : (forall h', (length (masksOf h' ((h, m1) :: l1 ++ (h, m2) :: l2)) <= n)%nat) ->
  exists sched s, placeRun sched (placeInit n [(h, m1) :: l1; (h, m2) :: l2]) = Done s /\ placeDone s /\
    forall h', exists taken, taken ≡ₚ masksOf h' ((h, m2) :: l1 ++ l2) /\ psGh s h' = taken ++ replicate (n - length taken) 0.
Proof.
  intros Hn. set (all := (h, m2) :: l1 ++ l2). assert (forall h', (length (masksOf h' all) <= n)%nat) as Hn'.
  { intros h'. specialize (Hn h'). unfold all, masksOf in *. rewrite !map_length in *. rewrite !filter_cons, !filter_app, !filter_cons in *. repeat (destruct (decide _)); cbn in *; repeat rewrite !app_length in *; cbn in *; lia. }
  assert (0 < n)%nat as Hpos. { specialize (Hn' h). unfold all, masksOf in Hn'. rewrite filter_cons_True in Hn' by done. cbn in Hn'. lia. }
  set (s6 := mkPstate (setAt (fun _ => 0%nat) h 1%nat) (setAt (fun _ => replicate n 0) h (<[0%nat := m2]> (replicate n 0))) [(Fetch, l1); (Fetch, l2)]).
  assert (inv n all None s6 (fun h' => if h' =? h then [m2] else [])) as I.
  { split; unfold s6, setAt; cbn [psIdx psGh psThr].
    - intros h'. by destruct (h' =? h).
    - intros h'. unfold pend. cbn [map concat fst snd]. rewrite app_nil_r. unfold all, masksOf. destruct (N.eqb_spec h' h) as [->|D]; [rewrite filter_cons_True by done|rewrite filter_cons_False by (cbn; congruence)]; rewrite filter_app; cbn [map]; rewrite map_app; done.
    - intros h'. destruct (h' =? h); by rewrite ?insert_length, replicate_length.
    - intros h' r Hr. destruct (h' =? h); [rewrite list_lookup_insert_ne by lia|]; apply lookup_replicate; lia.
    - intros h' r m E. destruct (N.eqb_spec h' h) as [->|D]; [|done]. left. apply list_lookup_singleton_Some in E as [-> <-]. apply list_lookup_insert. rewrite replicate_length; lia.
    - intros [|[|t]] r h' m l E; done.
    - intros [|[|t]] r h' m l E; done. }
  assert (exists s5, placeRun [0; 1; 0; 1; 0; 1]%nat (placeInit n [(h, m1) :: l1; (h, m2) :: l2]) = Done s5 /\ psThr s5 = psThr s6 /\
    (forall h', psIdx s5 h' = psIdx s6 h') /\ forall h', psGh s5 h' = psGh s6 h') as (s5 & E5 & T5 & X5 & G5).
  { clear -Hpos. destruct n as [|n]; [lia|]. do 5 (erewrite placeRun_cons; [|reflexivity]).
    erewrite placeRun_cons; [|unfold placeStep, setAt; cbn; rewrite N.eqb_refl; reflexivity].
    eexists. split; [reflexivity|]. split; [done|]. unfold s6, setAt. cbn. split; intros h'; destruct (N.eqb_spec h' h) as [->|D]; rewrite ?N.eqb_refl; try done. }
  assert (inv n all None s5 (fun h' => if h' =? h then [m2] else [])) as I5 by (by apply (inv_ext n all None s6)).
  assert (idle s5) as ID5 by (intros t th E; rewrite T5 in E; destruct t as [|[|t]]; [by injection E as <-|by injection E as <-|done]).
  destruct (finish n all Hn' (todo s5) s5 _ eq_refl ID5 I5) as (sched & s & HA & HR & HD).
  exists ([0; 1; 0; 1; 0; 1]%nat ++ sched), s. rewrite (placeRun_app _ _ _ _ E5). split; [done|]. split; [done|].
  destruct (run_inv n all sched Hn' None s5 _ I5 ltac:(done) HA) as (s' & asg & bt & E & J). rewrite HR in E. injection E as <-. by apply (inv_done n all bt s asg).
Qed.

(** ** One thread *)

Record inv1 (n : nat) (all : list (N * N)) (s : pstate) (pre : list (N * N)) : Prop := {
  o_thr : exists ph suf, psThr s = [(ph, suf)] /\ all = pre ++ suf /\
    (forall h, psIdx s h = length (masksOf h (pre ++ match ph with Put _ => take 1 suf | _ => [] end))) /\
    (forall h m l, suf = (h, m) :: l -> match ph with Fetch => True | Bump r | Put r => r = length (masksOf h pre) end);
  o_gh : forall h, psGh s h = masksOf h pre ++ replicate (n - length (masksOf h pre)) 0
}.
Lemma masksOf_app h a b : masksOf h (a ++ b) = masksOf h a ++ masksOf h b.
Proof. unfold masksOf. by rewrite filter_app, map_app. Qed.
Lemma masksOf_one h h' m : masksOf h' [(h, m)] = if h' =? h then [m] else [].
Proof. unfold masksOf. rewrite filter_cons, filter_nil. cbn [fst]. destruct (N.eqb_spec h' h) as [->|D]; [by rewrite decide_True|rewrite decide_False by congruence; done]. Qed.

Lemma insert_end (l : list N) k m : (0 < k)%nat -> <[length l := m]> (l ++ replicate k 0) = (l ++ [m]) ++ replicate (k - 1) 0.
Proof. intros Hk. rewrite insert_app_r_alt by lia. rewrite Nat.sub_diag. destruct k as [|k]; [lia|]. cbn. by rewrite Nat.sub_0_r, <- app_assoc. Qed.

Lemma inv1_step n all s pre t : (forall h, (length (masksOf h all) <= n)%nat) -> inv1 n all s pre -> exists s' pre', placeStep s t = Done s' /\ inv1 n all s' pre'.
Proof.
  intros Hn [(ph & suf & ET & EA & EI & ER) EG]. unfold placeStep. rewrite ET. destruct t as [|t]; [|exists s, pre; split; [done|]; split; [by exists ph, suf|done]].
  cbn [lookup list_lookup]. destruct suf as [|[h m] l]; [exists s, pre; split; [done|]; split; [by exists ph, []|done]|]. specialize (ER h m l eq_refl). destruct ph as [|r|r].
  - eexists _, pre. split; [done|]. split; [|done]. exists (Bump (psIdx s h)), ((h, m) :: l). cbn [psThr psIdx]. split; [done|]. split; [done|]. split; [done|]. intros h' m' l' [= <- <- <-]. by rewrite EI, app_nil_r.
  - subst r. eexists _, pre. split; [done|]. split; [|done]. exists (Put (length (masksOf h pre))), ((h, m) :: l). cbn [psThr psIdx]. split; [done|]. split; [done|]. split; [|by intros h' m' l' [= <- <- <-]].
    intros h'. cbn [take]. rewrite masksOf_app, masksOf_one, app_length. unfold setAt. destruct (N.eqb_spec h' h) as [->|D]; [done|]. rewrite EI, app_nil_r. cbn. lia.
  - subst r. assert (length (masksOf h pre) < n)%nat as Hlt. { specialize (Hn h). rewrite EA, masksOf_app, app_length in Hn. change ((h, m) :: l) with ([(h, m)] ++ l) in Hn. rewrite masksOf_app, masksOf_one, N.eqb_refl in Hn. cbn in Hn. lia. }
    rewrite EG, app_length, replicate_length. destruct (Nat.ltb_spec (length (masksOf h pre)) (length (masksOf h pre) + (n - length (masksOf h pre)))); [|lia].
    eexists _, (pre ++ [(h, m)]). split; [done|]. split; cbn [psThr psIdx psGh].
    + exists Fetch, l. split; [done|]. split; [by rewrite <- app_assoc|]. split; [|done]. intros h'. rewrite EI. cbn [take]. by rewrite app_nil_r.
    + intros h'. unfold setAt. rewrite masksOf_app, masksOf_one. destruct (N.eqb_spec h' h) as [->|D]; [|by rewrite app_nil_r, EG]. rewrite insert_end by lia. rewrite app_length. cbn. by rewrite Nat.sub_add_distr.
Qed.

Lemma place_one n all sched : (forall h, (length (masksOf h all) <= n)%nat) ->
  exists s, placeRun sched (placeInit n [all]) = Done s /\ (placeDone s -> forall h, psGh s h = masksOf h all ++ replicate (n - length (masksOf h all)) 0).
Proof.
  intros Hn. assert (forall s pre, inv1 n all s pre -> exists s' pre', placeRun sched s = Done s' /\ inv1 n all s' pre') as G.
  { induction sched as [|t sched IH]; intros s pre I; [by exists s, pre|]. destruct (inv1_step n all s pre t Hn I) as (s1 & pre1 & E1 & I1). destruct (IH s1 pre1 I1) as (s2 & pre2 & E2 & I2).
    exists s2, pre2. by rewrite (placeRun_cons _ _ _ _ E1). }
  destruct (G (placeInit n [all]) []) as (s & pre & E & [(ph & suf & ET & EA & _) EG]).
  { split; [|intros h; cbn; by rewrite Nat.sub_0_r]. exists Fetch, all. done. }
  exists s. split; [done|]. intros HD h. assert (suf = []) as -> by (apply (HD O (ph, suf)); by rewrite ET). rewrite app_nil_r in EA. subst pre. apply EG.
Qed.

(** ** The masks *)

(** The mask of an item under a hash number. *)
Definition itemMask (P : prty) (F : nat) (enc : N -> N) (m : N) (pol : nat -> N -> list N) (h x : N) : N :=
  let '(b1, b2) := binsOf enc m x in let b := if h =? 0 then b1 else b2 in let y := if h =? 0 then x else N.lxor x 1 in sendMask P F (pol b y) y.

Lemma bin_masks P F enc m pol S b h : h = 0 \/ h = 1 ->
  masksOf h (binMasks P F enc m pol S b) = map (itemMask P F enc m pol h) (filter (fun x => itemBinH enc m h x = b) S).
Proof.
  intros Hh. unfold binMasks. induction S as [|x S IH]; [done|]. cbn [map concat]. rewrite masksOf_app, IH, filter_cons. clear IH. set (tl := filter _ S).
  assert (itemBinH enc m h x = if h =? 0 then (binsOf enc m x).1 else (binsOf enc m x).2) as Ei by (unfold itemBinH; by destruct (binsOf enc m x)).
  assert (itemMask P F enc m pol h x = let y := if h =? 0 then x else N.lxor x 1 in sendMask P F (pol (if h =? 0 then (binsOf enc m x).1 else (binsOf enc m x).2) y) y) as Em by (unfold itemMask; by destruct (binsOf enc m x)).
  rewrite Ei. destruct (binsOf enc m x) as [b1 b2]. cbn [fst snd] in *. rewrite masksOf_app. set (c1 := sendMask _ _ (pol b x) x). set (c2 := sendMask _ _ (pol b (N.lxor x 1)) _).
  assert (masksOf h (if (b1 =? b)%nat then [(0, c1)] else []) = if (b1 =? b)%nat then masksOf h [(0, c1)] else []) as -> by (by destruct (b1 =? b)%nat).
  assert (masksOf h (if (b2 =? b)%nat then [(1, c2)] else []) = if (b2 =? b)%nat then masksOf h [(1, c2)] else []) as -> by (by destruct (b2 =? b)%nat).
  rewrite !masksOf_one. destruct Hh as [->| ->].
  - change (0 =? 1) with false. change (0 =? 0) with true in *. cbv iota zeta in *. destruct (Nat.eqb_spec b1 b) as [->|D]; [rewrite decide_True by done; cbn [map]; rewrite Em|rewrite decide_False by done]; by destruct (b2 =? b)%nat.
  - change (1 =? 0) with false in *. change (1 =? 1) with true. cbv iota zeta in *. destruct (Nat.eqb_spec b2 b) as [->|D]; [rewrite decide_True by done; cbn [map]; rewrite Em|rewrite decide_False by done]; by destruct (b1 =? b)%nat.
Qed.

Lemma masksOf_concat h (ls : list (list (N * N))) : masksOf h (concat ls) = concat (map (masksOf h) ls).
Proof. induction ls as [|l ls IH]; [done|]. cbn [concat map]. by rewrite masksOf_app, IH. Qed.

Lemma thread_masks P F enc m pol S T t h : h = 0 \/ h = 1 ->
  masksOf h (threadWork P F enc m pol S T t) = concat (map (fun b => map (itemMask P F enc m pol h) (filter (fun x => itemBinH enc m h x = b) S)) (idxRange (N.to_nat m) T t)).
Proof. intros Hh. unfold threadWork. rewrite masksOf_concat, map_map. f_equal. apply map_ext. intros b. by apply bin_masks. Qed.

Lemma group_perm {A B} (bin : A -> nat) (f : A -> B) nb S : (forall x, x ∈ S -> (bin x < nb)%nat) -> concat (map (fun b => map f (filter (fun x => bin x = b) S)) (seq 0 nb)) ≡ₚ map f S.
Proof.
  intros H. induction S as [|x S IH].
  { induction (seq 0 nb) as [|b bs IH]; [done|]. exact IH. }
  cbn [map]. rewrite <- IH by (intros y Hy; apply H; by right). specialize (H x ltac:(left)). clear IH.
  assert (bin x ∈ seq 0 nb) as Hin by (apply elem_of_seq; lia). pose proof (NoDup_seq 0 nb) as D. revert Hin D. generalize (seq 0 nb) as bs. clear H. intros bs. induction bs as [|b bs IH]; intros Hin D; [by apply elem_of_nil in Hin|].
  cbn [map concat]. rewrite filter_cons. inversion D as [|? ? Db D']; subst. destruct (decide (bin x = b)) as [<-|Hne].
  - cbn [map]. rewrite <- app_comm_cons. apply Permutation_skip. apply Permutation_app_head. clear -Db. induction bs as [|b bs IH]; [done|]. cbn [map concat]. apply not_elem_of_cons in Db as [D1 D2].
    rewrite filter_cons, decide_False by done. apply Permutation_app_head. by apply IH.
  - apply elem_of_cons in Hin as [|Hin]; [done|]. rewrite (IH Hin D'). by rewrite Permutation_middle.
Qed.
Lemma bin_lt enc m h x : 0 < m -> (itemBinH enc m h x < N.to_nat m)%nat.
Proof.
  intros Hm. unfold itemBinH, binsOf. assert (forall a, (N.to_nat (a mod m) < N.to_nat m)%nat) as H. { intros a. pose proof (N.mod_lt a m). lia. } destruct (h =? 0); apply H.
Qed.

Lemma all_masks P F enc m pol S T h : 0 < m -> (0 < T)%nat -> m * N.of_nat T < 2 ^ 64 -> h = 0 \/ h = 1 ->
  masksOf h (concat (map (threadWork P F enc m pol S T) (seq 0 T))) ≡ₚ sendHashes P F enc m pol S h.
Proof.
  intros Hm HT Hw Hh. rewrite masksOf_concat, map_map. rewrite (map_ext_in _ (fun t => concat (map (fun b => map (itemMask P F enc m pol h) (filter (fun x => itemBinH enc m h x = b) S)) (idxRange (N.to_nat m) T t)))) by (intros; by apply thread_masks).
  assert (concat (map (fun t => concat (map (fun b => map (itemMask P F enc m pol h) (filter (fun x => itemBinH enc m h x = b) S)) (idxRange (N.to_nat m) T t))) (seq 0 T)) =
    concat (map (fun b => map (itemMask P F enc m pol h) (filter (fun x => itemBinH enc m h x = b) S)) (concat (map (idxRange (N.to_nat m) T) (seq 0 T))))) as ->.
  { generalize (seq 0 T) as ts. intros ts. induction ts as [|t ts IH]; [done|]. cbn [map concat]. by rewrite IH, map_app, concat_app. }
  rewrite Ecdh_Proofs.idxRange_concat by lia. rewrite group_perm by (intros; by apply bin_lt). done.
Qed.

(** ** The order of the places *)

Lemma omap_ext_in {A B} (f g : A -> option B) (l : list A) : (forall x, x ∈ l -> f x = g x) -> omap f l = omap g l.
Proof. induction l as [|a l IH]; intros H; [done|]. cbn. rewrite (H a) by left. rewrite IH by (intros; apply H; by right). done. Qed.
Lemma filter_ext_in' {A} (Q1 Q2 : A -> Prop) `{forall x, Decision (Q1 x)} `{forall x, Decision (Q2 x)} (l : list A) : (forall x, x ∈ l -> Q1 x <-> Q2 x) -> filter Q1 l = filter Q2 l.
Proof.
  induction l as [|a l IH]; intros Hl; [done|]. rewrite !filter_cons, IH by (intros; apply Hl; by right). destruct (Hl a ltac:(left)) as [H1 H2]. repeat destruct (decide _); tauto || done.
Qed.

(** The places by the bins only. *)
Definition placePerm (m : nat) (bins : list nat) : list nat := concat (map (fun b => filter (fun i => bins !! i = Some b) (seq 0 (length bins))) (seq 0 m)).

Lemma placePerm_perm m bins : (forall b, b ∈ bins -> (b < m)%nat) -> placePerm m bins ≡ₚ seq 0 (length bins).
Proof.
  intros Hb. unfold placePerm. pose proof (group_perm (fun i => default O (bins !! i)) (fun i => i) m (seq 0 (length bins))) as G. rewrite map_id in G. rewrite <- G.
  - match goal with |- ?a ≡ₚ ?b => assert (a = b) as ->; [|done] end. f_equal. apply map_ext. intros b. rewrite map_id. apply filter_ext_in'. intros i Hi. apply elem_of_seq in Hi. destruct (lookup_lt_is_Some_2 bins i) as [c Hc]; [lia|]. rewrite Hc. cbn. split; congruence.
  - intros i Hi. apply elem_of_seq in Hi. destruct (lookup_lt_is_Some_2 bins i) as [c Hc]; [lia|]. rewrite Hc. cbn. apply Hb. by eapply elem_of_list_lookup_2.
Qed.
Lemma filter_places {A B} (bin : A -> nat) (f : A -> B) b (S : list A) :
  map f (filter (fun x => bin x = b) S) = omap (fun i => f <$> S !! i) (filter (fun i => map bin S !! i = Some b) (seq 0 (length S))).
Proof.
  induction S as [|x S IH] using rev_ind; [done|]. rewrite filter_app, map_app, app_length, seq_app, filter_app, omap_app. f_equal.
  - rewrite IH. rewrite (filter_ext_in' (fun i => map bin (S ++ [x]) !! i = Some b) (fun i => map bin S !! i = Some b)).
    2:{ intros i Hi. apply elem_of_seq in Hi. rewrite map_app, lookup_app_l by (rewrite map_length; lia). done. }
    apply omap_ext_in. intros i Hi. apply elem_of_list_filter in Hi as [_ Hi]. apply elem_of_seq in Hi. by rewrite lookup_app_l by lia.
  - cbn [length seq Nat.add]. rewrite !filter_cons, !filter_nil. assert (map bin (S ++ [x]) !! length S = Some (bin x)) as E. { rewrite map_app, lookup_app_r by (rewrite map_length; lia). by rewrite map_length, Nat.sub_diag. }
    destruct (decide (bin x = b)) as [<-|D]; [rewrite decide_True by done|rewrite decide_False by congruence; done]. cbn. rewrite lookup_app_r by lia. by rewrite Nat.sub_diag.
Qed.
Lemma one_places P F enc m pol S h : m < 2 ^ 64 -> h = 0 \/ h = 1 ->
  masksOf h (threadWork P F enc m pol S 1 0) = omap (fun i => itemMask P F enc m pol h <$> S !! i) (placePerm (N.to_nat m) (map (itemBinH enc m h) S)).
Proof.
  intros Hm Hh. rewrite thread_masks by done. pose proof (Ecdh_Proofs.idxRange_concat (N.to_nat m) 1 ltac:(lia)) as E. cbn [seq map concat] in E. rewrite app_nil_r in E. rewrite E by lia. clear E.
  unfold placePerm. rewrite map_length. induction (seq 0 (N.to_nat m)) as [|b bs IH]; [done|]. cbn [map concat]. rewrite omap_app, <- IH. f_equal. apply filter_places.
Qed.

Lemma sendHashes_map P F enc m pol S h : sendHashes P F enc m pol S h = map (itemMask P F enc m pol h) S.
Proof. done. Qed.
Lemma one_len P F enc m pol S h : 0 < m < 2 ^ 64 -> h = 0 \/ h = 1 -> length (masksOf h (threadWork P F enc m pol S 1 0)) = length S.
Proof.
  intros Hm Hh. pose proof (all_masks P F enc m pol S 1 h ltac:(lia) ltac:(lia) ltac:(lia) Hh) as H. cbn [seq map concat] in H. rewrite app_nil_r in H. rewrite H. unfold sendHashes. by rewrite map_length.
Qed.
Lemma two_hashes P F enc m pol S T t h : h <> 0 -> h <> 1 -> masksOf h (threadWork P F enc m pol S T t) = [].
Proof.
  intros H0 H1. unfold threadWork. rewrite masksOf_concat, map_map. induction (idxRange (N.to_nat m) T t) as [|b bs IH]; [done|]. cbn [map concat]. rewrite IH, app_nil_r. unfold binMasks. clear IH. induction S as [|x S IH]; [done|].
  cbn [map concat]. rewrite masksOf_app, IH, app_nil_r. destruct (binsOf enc m x) as [b1 b2]. rewrite masksOf_app. destruct (b1 =? b)%nat, (b2 =? b)%nat; rewrite ?masksOf_one; destruct (N.eqb_spec h 0), (N.eqb_spec h 1); done.
Qed.
Lemma placed_eq P F enc m pol S h a : 0 < m < 2 ^ 64 -> h = 0 \/ h = 1 -> placed P F enc m pol S h a ->
  a = omap (fun i => sendHashes P F enc m pol S h !! i) (placePerm (N.to_nat m) (map (itemBinH enc m h) S)).
Proof.
  intros Hm Hh (sched & s & E & HD & <-). destruct (place_one (length S) (threadWork P F enc m pol S 1 0) sched) as (s' & E' & HG).
  { intros h'. destruct (decide (h' = 0 \/ h' = 1)) as [H|H]; [by rewrite one_len|]. rewrite two_hashes by tauto. cbn. lia. }
  rewrite E in E'. injection E' as <-. rewrite (HG HD h), one_len, Nat.sub_diag, app_nil_r by done. rewrite one_places by (done || lia). apply omap_ext_in. intros i _. rewrite sendHashes_map. by rewrite list_lookup_fmap.
Qed.
Lemma place_order enc m h S : 0 < m < 2 ^ 64 -> h = 0 \/ h = 1 ->
  exists p, p ≡ₚ seq 0 (length S) /\ forall S', map (itemBinH enc m h) S' = map (itemBinH enc m h) S ->
    forall P F pol a, placed P F enc m pol S' h a -> a = omap (fun i => sendHashes P F enc m pol S' h !! i) p.
Proof.
  intros Hm Hh. exists (placePerm (N.to_nat m) (map (itemBinH enc m h) S)). split.
  - rewrite placePerm_perm; [by rewrite map_length|]. intros b Hb. apply elem_of_list_fmap in Hb as (x & -> & _). apply bin_lt. lia.
  - intros S' ES P F pol a Ha. rewrite <- ES. by apply placed_eq.
Qed.
Lemma placed_ex P F enc m pol S h : 0 < m < 2 ^ 64 -> exists a, placed P F enc m pol S h a.
Proof.
  intros Hm. set (w := threadWork P F enc m pol S 1 0). assert (forall h', (length (masksOf h' (concat [w])) <= length S)%nat) as Hn.
  { intros h'. cbn [concat]. rewrite app_nil_r. destruct (decide (h' = 0 \/ h' = 1)) as [H|H]; [unfold w; by rewrite one_len|]. unfold w. rewrite two_hashes by tauto. cbn. lia. }
  destruct (finish (length S) (concat [w]) Hn _ (placeInit (length S) [w]) (fun _ => []) eq_refl) as (sched & s & _ & E & HD).
  - intros [|t] th Et; [by injection Et as <-|done].
  - apply inv_init.
  - exists (psGh s h), sched, s. done.
Qed.
Lemma place_seen : exists (enc : N -> N) m S S' (y : N), NoDup S /\ NoDup S' /\ length S = length S' /\ y ∈ S /\ y ∈ S' /\ forall P F pol,
  (exists a, placed P F enc m pol S 0 a) /\ (exists a, placed P F enc m pol S' 0 a) /\ (forall a, placed P F enc m pol S 0 a -> a !! 1%nat = sendHashes P F enc m pol [y] 0 !! 0%nat) /\ (forall a, placed P F enc m pol S' 0 a -> a !! 0%nat = sendHashes P F enc m pol [y] 0 !! 0%nat).
Proof.
  exists (fun x => x), 3, [1; 0], [1; 2], 1. split; [by apply (bool_decide_eq_true_1 _); vm_compute|]. split; [by apply (bool_decide_eq_true_1 _); vm_compute|]. split; [done|]. split; [left|]. split; [left|].
  intros P F pol. split; [by apply placed_ex|]. split; [by apply placed_ex|]. split; intros a Ha; apply placed_eq in Ha; try (done || by left).
  - assert (placePerm (N.to_nat 3) (map (itemBinH (fun x => x) 3 0) [1; 0]) = [1; 0]%nat) as E by (by vm_compute). rewrite E in Ha. by subst a.
  - assert (placePerm (N.to_nat 3) (map (itemBinH (fun x => x) 3 0) [1; 2]) = [0; 1]%nat) as E by (by vm_compute). rewrite E in Ha. by subst a.
Qed.

(** ** Computing with states *)

Definition stepOr (s : pstate) (t : nat) : pstate := match placeStep s t with Done s' => s' | _ => s end.
Fixpoint runOk (sched : list nat) (s : pstate) : bool := match sched with [] => true | t :: rest => match placeStep s t with Done s' => runOk rest s' | _ => false end end.
Lemma runOk_run sched s : runOk sched s = true -> placeRun sched s = Done (foldl stepOr s sched).
Proof.
  revert s. induction sched as [|t sched IH]; intros s H; [done|]. cbn [runOk foldl] in *. unfold stepOr at 2. destruct (placeStep s t) as [s'| | |] eqn:E; try done. rewrite (placeRun_cons _ _ _ _ E). by apply IH.
Qed.
Lemma doneCheck s : forallb (fun th : thread => match th.2 with [] => true | _ => false end) (psThr s) = true -> placeDone s.
Proof. intros H t th E. rewrite forallb_forall in H. specialize (H th). rewrite <- elem_of_list_In in H. specialize (H ltac:(by eapply elem_of_list_lookup_2)). by destruct th.2. Qed.
