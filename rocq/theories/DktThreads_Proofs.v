(** Proofs about the threads of DKT. *)
From stdpp Require Import sets.
From Verif Require Import Base DktThreads_Model.

(** A use of thread [f]'s variables is protected if the using thread later fulfils a promise that [f] waits for. *)
Definition protected (progs : list (list op)) : Prop :=
  forall a pre f rest, progs !! a = Some (pre ++ Use f :: rest) ->
  exists p prog, SetP p ∈ rest /\ SetP p ∉ pre /\ (forall b prog', progs !! b = Some prog' -> b <> a -> SetP p ∉ prog') /\
    progs !! f = Some prog /\ GetP p ∈ prog.

(** Each thread has done a prefix of its program; fulfilled promises have been set; promises waited for are fulfilled. *)
Definition tinv (progs : list (list op)) (st : tstate) : Prop :=
  length (tRem st) = length progs /\
  (forall a prog rem, progs !! a = Some prog -> tRem st !! a = Some rem -> exists pre, prog = pre ++ rem /\ forall p, GetP p ∈ pre \/ SetP p ∈ pre -> p ∈ tSet st) /\
  (forall p, p ∈ tSet st -> exists a pre rem, progs !! a = Some (pre ++ rem) /\ tRem st !! a = Some rem /\ SetP p ∈ pre).

Lemma tinv_init progs : tinv progs (mkT progs []).
Proof.
  split; [done|]. split.
  - intros a prog rem H H'. cbn in H'. rewrite H in H'. injection H' as <-. exists []. split; [done|]. intros p [Hp|Hp]; by apply elem_of_nil in Hp.
  - intros p Hp. by apply elem_of_nil in Hp.
Qed.

Lemma tstep_advance progs st a o l ps : tinv progs st -> tRem st !! a = Some (o :: l) ->
  (forall p, p ∈ tSet st -> p ∈ ps) -> (forall p, o = GetP p \/ o = SetP p -> p ∈ ps) -> (forall p, p ∈ ps -> p ∈ tSet st \/ o = SetP p) ->
  tinv progs (mkT (<[a := l]> (tRem st)) ps).
Proof.
  intros (HL & HP & HS) Ha H1 H2 H3. assert (a < length (tRem st))%nat as Hlt by by apply lookup_lt_Some in Ha.
  destruct (lookup_lt_is_Some_2 progs a) as [prog Hprog]; [by rewrite <- HL|].
  destruct (HP a prog _ Hprog Ha) as (pre & Epre & Hpre). split; [cbn; by rewrite insert_length|]. split; cbn [tRem tSet].
  - intros b prog' rem Hb Hrem. destruct (decide (a = b)) as [<-|Hab].
    + rewrite list_lookup_insert in Hrem by done. injection Hrem as <-. rewrite Hprog in Hb. injection Hb as <-.
      exists (pre ++ [o]). split; [by rewrite <- app_assoc|]. intros p Hp. rewrite !elem_of_app, !elem_of_list_singleton in Hp.
      destruct Hp as [[Hp|Hp]|[Hp|Hp]]; [apply H1, Hpre; by left|apply H2; by left|apply H1, Hpre; by right|apply H2; by right].
    + rewrite list_lookup_insert_ne in Hrem by done. destruct (HP b prog' rem Hb Hrem) as (pre' & -> & Hp). exists pre'. split; [done|]. intros p Hp'. by apply H1, Hp.
  - intros p Hp. apply H3 in Hp as [Hp| ->].
    + apply HS in Hp as (b & pre' & rem & Hb & Hrem & Hin). destruct (decide (a = b)) as [<-|Hab].
      * rewrite Ha in Hrem. injection Hrem as <-. exists a, (pre' ++ [o]), l. split; [by rewrite <- app_assoc|]. rewrite list_lookup_insert by done. split; [done|]. apply elem_of_app. by left.
      * exists b, pre', rem. rewrite list_lookup_insert_ne by done. done.
    + exists a, (pre ++ [SetP p]), l. split; [rewrite <- app_assoc; cbn; by rewrite <- Epre|]. rewrite list_lookup_insert by done. split; [done|].
      apply elem_of_app. right. left.
Qed.

Lemma tstep_safe progs st a : protected progs -> tinv progs st -> exists st', tstep a st = Done st' /\ tinv progs st'.
Proof.
  intros HP HI. unfold tstep. destruct (tRem st !! a) as [[|o l]|] eqn:Ea; [by exists st| |by exists st]. destruct o as [p|p|f].
  - eexists. split; [done|]. apply (tstep_advance progs st a (SetP p) l); [done|done|by right|intros q [?|[= <-]]; [done|left]|].
    intros q [-> |Hq]%elem_of_cons; [by right|by left].
  - case_bool_decide as Hp; [|by exists st]. eexists. split; [done|]. apply (tstep_advance progs st a (GetP p) l); [done|done|done|by intros q [[= <-]|?]|by left].
  - pose proof HI as (HL & HR & HS). destruct (lookup_lt_is_Some_2 progs a) as [prog Hprog]; [rewrite <- HL; by apply lookup_lt_Some in Ea|].
    destruct (HR a prog _ Hprog Ea) as (pre & -> & Hpre). destruct (HP a pre f l Hprog) as (p & progf & Hset & Hnot & Hother & Hf & Hget).
    destruct (tRem st !! f) as [[|o' l']|] eqn:Ef.
    + exfalso. destruct (HR f progf [] Hf Ef) as (pre' & -> & Hpre'). rewrite app_nil_r in Hget. apply or_introl with (B := SetP p ∈ pre') in Hget. apply Hpre', HS in Hget as (b & preb & remb & Hb & Hremb & Hin).
      destruct (decide (b = a)) as [-> |Hba].
      * rewrite Ea in Hremb. injection Hremb as <-. rewrite Hprog in Hb. injection Hb as Hb. apply app_inv_tail in Hb as ->. done.
      * apply (Hother b _ Hb Hba). apply elem_of_app. by left.
    + eexists. split; [done|]. apply (tstep_advance progs st a (Use f) l); [done|done|done|by intros q [?|?]|by left].
    + exfalso. apply lookup_ge_None in Ef. apply lookup_lt_Some in Hf. lia.
Qed.

Lemma trun_safe progs sched st : protected progs -> tinv progs st -> exists st', trun sched st = Done st'.
Proof.
  intros HP. revert st. induction sched as [|a sched IH]; intros st HI; cbn; [by exists st|].
  destruct (tstep_safe progs st a HP HI) as (st' & -> & HI'). by apply IH.
Qed.

(** Splitting a program at an operation. *)
Lemma split_elem {A} (pre l rest : list A) x l1 l2 : pre ++ x :: rest = l1 ++ l2 -> x ∉ l1 -> exists pre', pre = l1 ++ pre' /\ pre' ++ x :: rest = l2.
Proof.
  revert pre. induction l1 as [|y l1 IH]; intros pre E Hx; [by exists pre|]. destruct pre as [|z pre]; cbn in E; injection E as -> E.
  - exfalso. apply Hx. left.
  - destruct (IH pre E) as (pre' & -> & E'); [set_solver|]. exists pre'. done.
Qed.

Lemma recv_progs T b prog : tRem (recvThreads T) !! b = Some prog -> b = 0%nat /\ prog = recvMain T \/ (1 <= b < T)%nat /\ prog = recvHelper b.
Proof.
  unfold recvThreads. cbn [tRem]. destruct b as [|b]; cbn; [intros [= <-]; by left|]. rewrite (list_lookup_fmap recvHelper). intros H.
  destruct (seq 1 (T - 1) !! b) as [x|] eqn:E; [|done]. injection H as <-. apply lookup_seq in E as [-> Hb]. right. split; [lia|]. done.
Qed.

Lemma recv_helper_at T t : (1 <= t < T)%nat -> tRem (recvThreads T) !! t = Some (recvHelper t).
Proof.
  intros Ht. unfold recvThreads. cbn [tRem]. destruct t as [|t]; [lia|]. cbn. rewrite (list_lookup_fmap recvHelper), lookup_seq_lt by lia. done.
Qed.

Lemma recv_protected T : protected (tRem (recvThreads T)).
Proof.
  intros a pre f rest H. apply recv_progs in H as [[-> E]|[Ha E]].
  - (* thread 0 uses a helper *)
    assert (exists pre', pre ++ Use f :: rest = pre' ++ [SetP (MergedP, 0%nat)] /\ pre' = map (fun t => GetP (SigmaHashP, t)) (seq 1 (T - 1)) ++ [SetP (SigmaValsP, 0)]%nat
      ++ map (fun t => GetP (Sigma2HashP, t)) (seq 1 (T - 1)) ++ [SetP (Sigma2ValsP, 0)]%nat ++ concat (map (fun t => [GetP (InputHashP, t); Use t]) (seq 1 (T - 1)))) as (pre' & E' & Ep').
    { eexists. split; [|done]. rewrite E. unfold recvMain. by rewrite <- !app_assoc. }
    assert (Use f ∈ pre') as Hin.
    { destruct (decide (Use f ∈ pre')) as [|Hn]; [done|]. apply split_elem in E' as (? & _ & E'); [|done|done].
      destruct x as [|? [|? ?]]; done. }
    assert (forall p, p = SetP (MergedP, 0%nat) -> p ∉ pre') as Hm.
    { intros p -> Hm. rewrite Ep' in Hm. rewrite !elem_of_app, !elem_of_list_singleton in Hm. destruct Hm as [Hm|[Hm|[Hm|[Hm|Hm]]]]; try done.
      - apply elem_of_list_fmap in Hm as (? & ? & _). done.
      - apply elem_of_list_fmap in Hm as (? & ? & _). done.
      - apply elem_of_concat in Hm as (l & Hm & Hl). apply elem_of_list_fmap in Hl as (? & -> & _). set_solver. }
    assert (1 <= f < T)%nat as Hf.
    { rewrite Ep' in Hin. rewrite !elem_of_app, !elem_of_list_singleton in Hin. destruct Hin as [Hin|[Hin|[Hin|[Hin|Hin]]]]; try done.
      - apply elem_of_list_fmap in Hin as (? & ? & _). done.
      - apply elem_of_list_fmap in Hin as (? & ? & _). done.
      - apply elem_of_concat in Hin as (l & Hin & Hl). apply elem_of_list_fmap in Hl as (t & -> & Ht). apply elem_of_seq in Ht.
        rewrite !elem_of_cons, elem_of_nil in Hin. destruct Hin as [Hin|[[= ->]|[]]]; [done|lia]. }
    exists (MergedP, 0%nat), (recvHelper f).
    destruct rest as [|o rest _] using rev_ind; [exfalso; apply app_inj_tail in E' as [_ E']; done|].
    rewrite app_comm_cons, app_assoc in E'. apply app_inj_tail in E' as [E' ->].
    split; [apply elem_of_app; right; left|]. split; [intros Hp; apply (Hm _ eq_refl); rewrite <- E'; apply elem_of_app; by left|]. split.
    + intros b prog' Hb Hne. apply recv_progs in Hb as [[-> _]|[_ ->]]; [done|]. unfold recvHelper. intros Hp. rewrite !elem_of_cons, elem_of_nil in Hp. naive_solver.
    + split; [by apply recv_helper_at|]. unfold recvHelper. rewrite !elem_of_cons. naive_solver.
  - (* a helper uses thread 0 *)
    assert (f = 0%nat /\ SetP (InputHashP, a) ∈ rest /\ SetP (InputHashP, a) ∉ pre) as (-> & Hr & Hp).
    { unfold recvHelper in E. clear - E.
      repeat (destruct pre as [|? pre]; [inversion E; subst; (split; [done|]; split; set_solver)|cbn in E; injection E as -> E]).
      destruct pre; discriminate E. }
    exists (InputHashP, a), (recvMain T). split; [done|]. split; [done|]. split.
    + intros b prog' Hb Hne. apply recv_progs in Hb as [[-> ->]|[_ ->]].
      * unfold recvMain. rewrite !elem_of_app, !elem_of_list_singleton. intros [Hm|[Hm|[Hm|[Hm|[Hm|Hm]]]]]; try done.
        -- apply elem_of_list_fmap in Hm as (? & ? & _). done.
        -- apply elem_of_list_fmap in Hm as (? & ? & _). done.
        -- apply elem_of_concat in Hm as (l & Hm & Hl). apply elem_of_list_fmap in Hl as (? & -> & _). set_solver.
      * unfold recvHelper. intros Hq. rewrite !elem_of_cons, elem_of_nil in Hq. naive_solver.
    + split; [done|]. unfold recvMain. rewrite !elem_of_app. do 4 right. left. apply elem_of_concat. exists [GetP (InputHashP, a); Use a]. split; [left|].
      apply (elem_of_list_fmap_1 (fun t => [GetP (InputHashP, t); Use t])). apply elem_of_seq. lia.
Qed.

Lemma recv_threads T sched : exists st, trun sched (recvThreads T) = Done st.
Proof. apply (trun_safe (tRem (recvThreads T))); [apply recv_protected|apply tinv_init]. Qed.

(** ** Progress *)

Definition isUse (o : op) : bool := match o with Use _ => true | _ => false end.
(** Operations of a program come in the order of their ranks; a promise is set at a lower rank than it is waited for. *)
Definition ordered (rk : op -> nat) (l : list op) : Prop :=
  StronglySorted (fun o o' => isUse o = true \/ isUse o' = true \/ (rk o <= rk o')%nat) l.

Lemma tstep_inv progs st a st' : tinv progs st -> tstep a st = Done st' -> tinv progs st'.
Proof.
  intros HI. unfold tstep. destruct (tRem st !! a) as [[|o l]|] eqn:Ea; [by intros [= <-]| |by intros [= <-]]. destruct o as [p|p|f].
  - intros [= <-]. apply (tstep_advance progs st a (SetP p) l); [done|done|by right|intros q [?|[= <-]]; [done|left]|].
    intros q [-> |Hq]%elem_of_cons; [by right|by left].
  - case_bool_decide as Hp; [|by intros [= <-]]. intros [= <-]. apply (tstep_advance progs st a (GetP p) l); [done|done|done|by intros q [[= <-]|?]|by left].
  - destruct (tRem st !! f) as [[|o' l']|] eqn:Ef; [done| |done]. intros [= <-].
    apply (tstep_advance progs st a (Use f) l); [done|done|done|by intros q [?|?]|by left].
Qed.

Lemma trun_inv progs sched : forall st st', tinv progs st -> trun sched st = Done st' -> tinv progs st'.
Proof.
  induction sched as [|a sched IH]; intros st st' HI; cbn; [by intros [= <-]|].
  destruct (tstep a st) as [st1| | |] eqn:E; [|done..]. apply IH. by apply (tstep_inv progs st a).
Qed.

(** A thread with the waiting operation of least rank. *)
Lemma least_head (rk : op -> nat) (ls : list (list op)) : (exists a o l, ls !! a = Some (o :: l)) ->
  exists a o l, ls !! a = Some (o :: l) /\ forall b o' l', ls !! b = Some (o' :: l') -> (rk o <= rk o')%nat.
Proof.
  induction ls as [|x ls IH]; intros (a & o & l & H); [done|].
  destruct (decide (Exists (fun q => q <> []) ls)) as [HE|HE].
  - apply Exists_exists in HE as (q & Hq & Hne). apply elem_of_list_lookup in Hq as [j Hj]. destruct q as [|o1 l1]; [done|].
    destruct IH as (b & o2 & l2 & Hb & Hmin); [by exists j, o1, l1|]. destruct x as [|ox lx].
    + exists (S b), o2, l2. split; [done|]. intros [|c] o' l' Hc; [done|]. by apply (Hmin c o' l').
    + destruct (decide (rk ox <= rk o2)%nat).
      * exists 0%nat, ox, lx. split; [done|]. intros [|c] o' l' Hc; [by injection Hc as <- <-|]. specialize (Hmin c o' l' Hc). lia.
      * exists (S b), o2, l2. split; [done|]. intros [|c] o' l' Hc; [injection Hc as <- <-; lia|]. by apply (Hmin c o' l').
  - destruct a as [|a]; cbn in H.
    + injection H as ->. exists 0%nat, o, l. split; [done|]. intros [|c] o' l' Hc; [by injection Hc as <- <-|]. cbn in Hc.
      exfalso. apply HE. apply Exists_exists. exists (o' :: l'). split; [by apply elem_of_list_lookup_2 in Hc|done].
    + exfalso. apply HE. apply Exists_exists. exists (o :: l). split; [by apply elem_of_list_lookup_2 in H|done].
Qed.

Lemma progress rk progs st : tinv progs st -> (forall a prog, progs !! a = Some prog -> ordered rk prog) ->
  (forall a prog p, progs !! a = Some prog -> GetP p ∈ prog -> (rk (SetP p) < rk (GetP p))%nat /\ exists b prog', progs !! b = Some prog' /\ SetP p ∈ prog') ->
  (exists a o l, tRem st !! a = Some (o :: l)) -> exists a, tstep a st <> Done st.
Proof.
  intros HI HO HG HE.
  assert (forall a o l, tRem st !! a = Some (o :: l) -> forall l2, mkT (<[a := l]> (tRem st)) l2 <> st) as Hne.
  { intros a o l Ha l2 E. assert (tRem st !! a = Some l) as E'. { rewrite <- E at 1. cbn. apply list_lookup_insert. by apply lookup_lt_Some in Ha. }
    rewrite Ha in E'. injection E' as E'. apply (f_equal length) in E'. cbn in E'. lia. }
  destruct (decide (Exists (fun q => (match q with [] => false | GetP _ :: _ => false | _ => true end) = true) (tRem st))) as [HX|HX].
  - apply Exists_exists in HX as (q & Hq & Hop). apply elem_of_list_lookup in Hq as [a Ha]. exists a. unfold tstep. rewrite Ha.
    destruct q as [|[p|p|f] l]; [done| |done|].
    + intros [= E]. by apply (Hne a _ l Ha) in E.
    + destruct (tRem st !! f) as [[|]|]; [done| |done]. intros [= E]. by apply (Hne a _ l Ha) in E.
  - destruct (least_head rk (tRem st) HE) as (a & o & l & Ha & Hmin). exists a. unfold tstep. rewrite Ha.
    assert (exists p, o = GetP p) as [p ->].
    { destruct o as [p|p|f]; [exfalso|by exists p|exfalso]; apply HX, Exists_exists; eexists; (split; [by apply elem_of_list_lookup_2 in Ha|done]). }
    destruct HI as (HL & HR & HS). destruct (lookup_lt_is_Some_2 progs a) as [prog Hprog]; [rewrite <- HL; by apply lookup_lt_Some in Ha|].
    destruct (HR a prog _ Hprog Ha) as (pre & -> & _). destruct (HG a _ p Hprog) as (Hrk & b & progb & Hb & Hset); [apply elem_of_app; right; left|].
    destruct (lookup_lt_is_Some_2 (tRem st) b) as [remb Hremb]; [rewrite HL; by apply lookup_lt_Some in Hb|].
    destruct (HR b progb remb Hb Hremb) as (preb & -> & Hpreb). apply elem_of_app in Hset as [Hset|Hset].
    + rewrite bool_decide_eq_true_2 by (apply Hpreb; by right). intros [= E]. by apply (Hne a _ l Ha) in E.
    + exfalso. destruct remb as [|h remb]; [by apply elem_of_nil in Hset|]. specialize (Hmin b h remb Hremb).
      assert (exists q, h = GetP q) as [q ->].
      { destruct h as [q|q|f]; [exfalso|by exists q|exfalso]; apply HX, Exists_exists; eexists; (split; [by apply elem_of_list_lookup_2 in Hremb|done]). }
      apply elem_of_cons in Hset as [Hset|Hset]; [done|]. specialize (HO b _ Hb). unfold ordered in HO.
      apply StronglySorted_app_inv_r in HO. inversion HO as [|x y Hs Hf]; subst. rewrite Forall_forall in Hf.
      destruct (Hf _ Hset) as [?|[?|?]]; [done|done|lia].
Qed.

Definition atRank (rk : op -> nat) (c : nat) (l : list op) : Prop := forall o, o ∈ l -> isUse o = true \/ rk o = c.

Lemma ordered_app rk l1 l2 : ordered rk l1 -> ordered rk l2 ->
  (forall o o', o ∈ l1 -> o' ∈ l2 -> isUse o = true \/ isUse o' = true \/ (rk o <= rk o')%nat) -> ordered rk (l1 ++ l2).
Proof.
  unfold ordered. induction l1 as [|x l1 IH]; intros H1 H2 H; [done|]. cbn. inversion H1; subst. constructor.
  - apply IH; [done|done|]. intros o o' Ho. apply H. by right.
  - apply Forall_forall. intros y Hy. apply elem_of_app in Hy as [Hy|Hy]; [|apply H; [left|done]]. by apply (proj1 (Forall_forall _ _) H5).
Qed.

Lemma ordered_at rk c l : atRank rk c l -> ordered rk l.
Proof.
  unfold ordered. induction l as [|x l IH]; intros H; constructor.
  - apply IH. intros o Ho. apply H. by right.
  - apply Forall_forall. intros y Hy. destruct (H x) as [|E]; [left|by left|]. destruct (H y) as [|E']; [by right|by right; left|]. right. right. lia.
Qed.

(** A list of blocks, each of one rank, ranks not falling. *)
Lemma ordered_blocks rk (bs : list (nat * list op)) : Forall (fun b => atRank rk b.1 b.2) bs -> StronglySorted le (map fst bs) -> ordered rk (concat (map snd bs)).
Proof.
  induction bs as [|[c l] bs IH]; intros HF HS; [constructor|]. cbn in *. inversion HF as [|? ? Hc HF']; subst. inversion HS as [|? ? HS' Hle]; subst.
  apply ordered_app; [by apply (ordered_at rk c)|by apply IH|]. intros o o' Ho Ho'. apply elem_of_concat in Ho' as (l' & Ho' & Hl').
  apply elem_of_list_fmap in Hl' as ([c' l''] & -> & Hb). cbn in Ho'. destruct (Hc o Ho) as [|E]; [by left|]. right.
  destruct (proj1 (Forall_forall _ _) HF' _ Hb o' Ho') as [|E']; [by left|]. right. cbn in E'. rewrite E, E'.
  apply (proj1 (Forall_forall _ _) Hle). apply (elem_of_list_fmap_1 fst _ (c', l'')). done.
Qed.

Definition recvRank (o : op) : nat :=
  match o with
  | SetP (SigmaHashP, _) => 0 | GetP (SigmaHashP, _) | SetP (SigmaValsP, _) => 1
  | GetP (SigmaValsP, _) | SetP (Sigma2HashP, _) => 2 | GetP (Sigma2HashP, _) | SetP (Sigma2ValsP, _) => 3
  | GetP (Sigma2ValsP, _) | SetP (InputHashP, _) => 4 | GetP (InputHashP, _) | SetP (MergedP, _) => 5
  | _ => 6
  end%nat.
Definition sendRank (o : op) : nat :=
  match o with
  | SetP (PchP, _) => 0 | GetP (PchP, _) | SetP (PchAllP, _) => 1 | GetP (PchAllP, _) | SetP (SigmaHashP, _) => 2
  | GetP (SigmaHashP, _) | SetP (Sigma2PhiP, _) => 3
  | _ => 4
  end%nat.

Lemma atRank_map rk c (f : nat -> op) l : (forall t, rk (f t) = c) -> atRank rk c (map f l).
Proof. intros H o Ho. apply elem_of_list_fmap in Ho as (t & -> & _). by right. Qed.
Lemma atRank_pairs rk c (f g : nat -> op) l : (forall t, rk (f t) = c) -> (forall t, isUse (g t) = true) -> atRank rk c (concat (map (fun t => [f t; g t]) l)).
Proof.
  intros H Hg o Ho. apply elem_of_concat in Ho as (x & Ho & Hx). apply elem_of_list_fmap in Hx as (t & -> & _).
  rewrite !elem_of_cons, elem_of_nil in Ho. destruct Ho as [-> |[-> |[]]]; [by right|by left].
Qed.
Lemma atRank_one rk c o : rk o = c -> atRank rk c [o].
Proof. intros H o' Ho%elem_of_list_singleton. subst. by right. Qed.

Lemma recv_ordered T a prog : tRem (recvThreads T) !! a = Some prog -> ordered recvRank prog.
Proof.
  intros [[-> ->]|[Ha ->]]%recv_progs.
  - unfold recvMain.
    apply (ordered_blocks recvRank [(1, map (fun t => GetP (SigmaHashP, t)) (seq 1 (T - 1))); (1, [SetP (SigmaValsP, 0)]); (3, map (fun t => GetP (Sigma2HashP, t)) (seq 1 (T - 1)));
      (3, [SetP (Sigma2ValsP, 0)]); (5, concat (map (fun t => [GetP (InputHashP, t); Use t]) (seq 1 (T - 1)))); (5, [SetP (MergedP, 0)])]%nat).
    + repeat (apply Forall_cons_2; cbn [fst snd]);
        first [by apply atRank_map|by apply atRank_one|by apply (atRank_pairs recvRank 5 (fun t => GetP (InputHashP, t)) Use)|by apply Forall_nil].
    + cbn. repeat (constructor; [|repeat constructor; lia]). constructor.
  - unfold recvHelper, ordered. repeat (constructor; [|repeat constructor; cbn; first [by left|by right; left|right; right; lia]]). constructor.
Qed.

Lemma send_progs T b prog : tRem (sendThreads T) !! b = Some prog -> b = 0%nat /\ prog = sendMain T \/ (1 <= b < T)%nat /\ prog = sendHelper b.
Proof.
  unfold sendThreads. cbn [tRem]. destruct b as [|b]; cbn; [intros [= <-]; by left|]. rewrite (list_lookup_fmap sendHelper). intros H.
  destruct (seq 1 (T - 1) !! b) as [x|] eqn:E; [|done]. injection H as <-. apply lookup_seq in E as [-> Hb]. right. split; [lia|]. done.
Qed.

Lemma send_helper_at T t : (1 <= t < T)%nat -> tRem (sendThreads T) !! t = Some (sendHelper t).
Proof.
  intros Ht. unfold sendThreads. cbn [tRem]. destruct t as [|t]; [lia|]. cbn. rewrite (list_lookup_fmap sendHelper), lookup_seq_lt by lia. done.
Qed.

Lemma send_ordered T a prog : tRem (sendThreads T) !! a = Some prog -> ordered sendRank prog.
Proof.
  intros [[-> ->]|[Ha ->]]%send_progs.
  - unfold sendMain.
    apply (ordered_blocks sendRank [(1, concat (map (fun t => [GetP (PchP, t); Use t]) (seq 1 (T - 1)))); (1, [SetP (PchAllP, 0)]);
      (3, map (fun t => GetP (SigmaHashP, t)) (seq 1 (T - 1))); (3, [SetP (Sigma2PhiP, 0)])]%nat).
    + repeat (apply Forall_cons_2; cbn [fst snd]);
        first [by apply atRank_map|by apply atRank_one|by apply (atRank_pairs sendRank 1 (fun t => GetP (PchP, t)) Use)|by apply Forall_nil].
    + cbn. repeat (constructor; [|repeat constructor; lia]). constructor.
  - unfold sendHelper, ordered. repeat (constructor; [|repeat constructor; cbn; first [by left|by right; left|right; right; lia]]). constructor.
Qed.

Lemma recv_gets T a prog p : tRem (recvThreads T) !! a = Some prog -> GetP p ∈ prog ->
  (recvRank (SetP p) < recvRank (GetP p))%nat /\ exists b prog', tRem (recvThreads T) !! b = Some prog' /\ SetP p ∈ prog'.
Proof.
  intros [[-> ->]|[Ha ->]]%recv_progs Hp.
  - assert (exists t, (1 <= t < T)%nat /\ (p = (SigmaHashP, t) \/ p = (Sigma2HashP, t) \/ p = (InputHashP, t))) as (t & Ht & Hpt).
    { unfold recvMain in Hp. rewrite !elem_of_app, !elem_of_list_singleton in Hp. destruct Hp as [Hp|[Hp|[Hp|[Hp|[Hp|Hp]]]]]; try done.
      - apply elem_of_list_fmap in Hp as (t & [= ->] & Ht%elem_of_seq). exists t. split; [lia|by left].
      - apply elem_of_list_fmap in Hp as (t & [= ->] & Ht%elem_of_seq). exists t. split; [lia|by right; left].
      - apply elem_of_concat in Hp as (x & Hp & Hx). apply elem_of_list_fmap in Hx as (t & -> & Ht%elem_of_seq).
        rewrite !elem_of_cons, elem_of_nil in Hp. destruct Hp as [[= ->]|[?|[]]]; [|done]. exists t. split; [lia|by right; right]. }
    split; [destruct Hpt as [-> |[-> | ->]]; cbn; lia|]. exists t, (recvHelper t). split; [by apply recv_helper_at|].
    unfold recvHelper. rewrite !elem_of_cons. destruct Hpt as [-> |[-> | ->]]; tauto.
  - assert (p = (SigmaValsP, 0%nat) \/ p = (Sigma2ValsP, 0%nat) \/ p = (MergedP, 0%nat)) as Hpt.
    { unfold recvHelper in Hp. rewrite !elem_of_cons, elem_of_nil in Hp. naive_solver. }
    split; [destruct Hpt as [-> |[-> | ->]]; cbn; lia|]. exists 0%nat, (recvMain T). split; [done|].
    unfold recvMain. rewrite !elem_of_app, !elem_of_list_singleton. destruct Hpt as [-> |[-> | ->]]; tauto.
Qed.

Lemma send_gets T a prog p : tRem (sendThreads T) !! a = Some prog -> GetP p ∈ prog ->
  (sendRank (SetP p) < sendRank (GetP p))%nat /\ exists b prog', tRem (sendThreads T) !! b = Some prog' /\ SetP p ∈ prog'.
Proof.
  intros [[-> ->]|[Ha ->]]%send_progs Hp.
  - assert (exists t, (1 <= t < T)%nat /\ (p = (SigmaHashP, t) \/ p = (PchP, t))) as (t & Ht & Hpt).
    { unfold sendMain in Hp. rewrite !elem_of_app, !elem_of_list_singleton in Hp. destruct Hp as [Hp|[Hp|[Hp|Hp]]]; try done.
      - apply elem_of_concat in Hp as (x & Hp & Hx). apply elem_of_list_fmap in Hx as (t & -> & Ht%elem_of_seq).
        rewrite !elem_of_cons, elem_of_nil in Hp. destruct Hp as [[= ->]|[?|[]]]; [|done]. exists t. split; [lia|by right].
      - apply elem_of_list_fmap in Hp as (t & [= ->] & Ht%elem_of_seq). exists t. split; [lia|by left]. }
    split; [destruct Hpt as [-> | ->]; cbn; lia|]. exists t, (sendHelper t). split; [by apply send_helper_at|].
    unfold sendHelper. rewrite !elem_of_cons. destruct Hpt as [-> | ->]; tauto.
  - assert (p = (PchAllP, 0%nat) \/ p = (Sigma2PhiP, 0%nat)) as Hpt.
    { unfold sendHelper in Hp. rewrite !elem_of_cons, elem_of_nil in Hp. naive_solver. }
    split; [destruct Hpt as [-> | ->]; cbn; lia|]. exists 0%nat, (sendMain T). split; [done|].
    unfold sendMain. rewrite !elem_of_app, !elem_of_list_singleton. destruct Hpt as [-> | ->]; tauto.
Qed.

Lemma recv_progress T sched st : trun sched (recvThreads T) = Done st -> (exists a o l, tRem st !! a = Some (o :: l)) -> exists a, tstep a st <> Done st.
Proof.
  intros H. apply (progress recvRank (tRem (recvThreads T))); [|intros; by eapply recv_ordered|intros; by eapply recv_gets].
  apply (trun_inv _ sched (recvThreads T)); [apply tinv_init|done].
Qed.
Lemma send_progress T sched st : trun sched (sendThreads T) = Done st -> (exists a o l, tRem st !! a = Some (o :: l)) -> exists a, tstep a st <> Done st.
Proof.
  intros H. apply (progress sendRank (tRem (sendThreads T))); [|intros; by eapply send_ordered|intros; by eapply send_gets].
  apply (trun_inv _ sched (sendThreads T)); [apply tinv_init|done].
Qed.

(** One thread uses no other thread's variables. *)
Lemma send_one sched : exists st, trun sched (sendThreads 1) = Done st.
Proof.
  apply (trun_safe (tRem (sendThreads 1))); [|apply tinv_init]. intros a pre f rest H. apply send_progs in H as [[-> E]|[Ha E]]; [|lia].
  exfalso. cbn in E. assert (Use f ∈ [SetP (PchAllP, 0%nat); SetP (Sigma2PhiP, 0%nat)]) as Hin.
  { change ([SetP (PchAllP, 0%nat); SetP (Sigma2PhiP, 0%nat)]) with (sendMain 1). cbn. rewrite <- E. apply elem_of_app. right. left. }
  rewrite !elem_of_cons, elem_of_nil in Hin. naive_solver.
Qed.
