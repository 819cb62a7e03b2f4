(** Proofs about threads and their seeds. *)
From stdpp Require Import relations.
From Verif Require Import Base Capture_Model Capture_Spec.

(** [x] is not touched before thread [t] is joined. *)
Fixpoint guarded (x t : nat) (p : list op) : Prop :=
  match p with
  | [] => False
  | Join t' :: p' => t' = t \/ guarded x t p'
  | (Decl y _ | Set_ y _ | End_ y) :: p' => y <> x /\ guarded x t p'
  | (Spawn _ | SpawnCopy _) :: p' => guarded x t p'
  end.
(** What has to hold of the rest of the program, from memory [m] and [n] threads on. *)
Fixpoint fut (seeds : list N) (p : list op) (m : nat -> option N) (n : nat) : Prop :=
  match p with
  | [] => True
  | (Decl x v | Set_ x v) :: p' => fut seeds p' (put x (Some v) m) n
  | End_ x :: p' => fut seeds p' (put x None m) n
  | Join _ :: p' => fut seeds p' m n
  | Spawn x :: p' => (exists v, m x = Some v /\ seeds !! n = Some v) /\ guarded x n p' /\ fut seeds p' m (S n)
  | SpawnCopy x :: p' => (exists v, m x = Some v /\ seeds !! n = Some v) /\ fut seeds p' m (S n)
  end.
Definition fine (seeds : list N) (s : cstate) : Prop :=
  fut seeds (prog s) (mem s) (length (threads s)) /\
  forall t th, threads s !! t = Some th -> match th with
    | Ref x => (exists v, mem s x = Some v /\ seeds !! t = Some v) /\ guarded x t (prog s)
    | Copy v => seeds !! t = Some v
    | Has r => exists v, r = Some v /\ seeds !! t = Some v
    end.
Lemma put_ne x y v m : y <> x -> put x v m y = m y.
Proof. intros H. unfold put. apply Nat.eqb_neq in H. by rewrite H. Qed.
Lemma put_eq x v m : put x v m x = v.
Proof. unfold put. by rewrite Nat.eqb_refl. Qed.
Lemma fine_step seeds s s' : fine seeds s -> cstep s s' -> fine seeds s'.
Proof.
  intros [Hf Ht] Hs. destruct Hs as [x v p m ts|x v p m ts|x p m ts|x v p m ts E|x p m ts|t r p m ts E|t x p m ts E|t v p m ts E]; cbn [prog mem threads fut] in *.
  - split; [done|]. cbn [prog mem threads]. intros t th H. specialize (Ht t th H). destruct th; [|done|done]. destruct Ht as [Hv [Hne Hg]]. rewrite put_ne by done. done.
  - split; [done|]. cbn [prog mem threads]. intros t th H. specialize (Ht t th H). destruct th; [|done|done]. destruct Ht as [Hv [Hne Hg]]. rewrite put_ne by done. done.
  - destruct Hf as (Hv & Hg & Hf). split; cbn [prog mem threads]; [rewrite app_length, Nat.add_1_r; done|].
    intros t th H. apply lookup_app_Some in H as [H|[Hl H]].
    + specialize (Ht t th H). destruct th; [|done|done]. destruct Ht. done.
    + apply list_lookup_singleton_Some in H as [Ht0 <-]. replace t with (length ts) by lia. done.
  - destruct Hf as (Hv & Hf). split; cbn [prog mem threads]; [rewrite app_length, Nat.add_1_r; done|].
    intros t th H. apply lookup_app_Some in H as [H|[Hl H]].
    + specialize (Ht t th H). destruct th; [|done|done]. destruct Ht. done.
    + apply list_lookup_singleton_Some in H as [Ht0 <-]. replace t with (length ts) by lia. destruct Hv as (v' & E' & Hv). congruence.
  - split; [done|]. cbn [prog mem threads]. intros t th H. specialize (Ht t th H). destruct th; [|done|done]. destruct Ht as [Hv [Hne Hg]]. rewrite put_ne by done. done.
  - split; [done|]. cbn [prog mem threads]. intros t' th H. pose proof (Ht t' th H) as Ht'. destruct th; [|done|done]. destruct Ht' as [Hv [->|Hg]]; [|done]. congruence.
  - split; cbn [prog mem threads]; [rewrite insert_length; done|]. intros t' th H. apply list_lookup_insert_Some in H as [(-> & <- & _)|[_ H]]; [|by apply Ht].
    destruct (Ht _ _ E) as [(v & Hv & Hs) _]. by exists v.
  - split; cbn [prog mem threads]; [rewrite insert_length; done|]. intros t' th H. apply list_lookup_insert_Some in H as [(-> & <- & _)|[_ H]]; [|by apply Ht].
    pose proof (Ht _ _ E) as Hv. cbn in Hv. by exists v.
Qed.
Lemma fine_own seeds p : fut seeds p (fun _ => None) 0 -> ownSeeds p seeds.
Proof.
  intros H s t r Hs Hr. assert (fine seeds s) as [_ Ht].
  { assert (fine seeds (cinit p)) as Hi by (split; [done|]; intros t' th Hl; cbn in Hl; by rewrite lookup_nil in Hl). clear -Hs Hi. induction Hs as [|s1 s2 s3 H1 _ IH]; [done|]. apply IH. by eapply fine_step. }
  specialize (Ht _ _ Hr). done.
Qed.

Lemma imap_S {A B} (f : nat -> A -> B) k l x : imap (fun i => f (k + i)%nat) (x :: l) = f k x :: imap (fun i => f (S k + i)%nat) l.
Proof. rewrite imap_cons, Nat.add_0_r. f_equal. apply imap_ext. intros i a _. cbn. f_equal. lia. Qed.

(** ** Captured by copy *)
Lemma fut_joins seeds ts m n p : (forall m' n', fut seeds p m' n') -> fut seeds (map Join ts ++ p) m n.
Proof. intros H. induction ts as [|t ts IH]; cbn [map app fut]; done. Qed.
Lemma copy_fut seeds done_ rest m : seeds = done_ ++ rest ->
  fut seeds (concat (imap (fun i s => [Decl (length done_ + i)%nat s; SpawnCopy (length done_ + i)%nat; End_ (length done_ + i)%nat]) rest) ++ joins (length seeds)) m (length done_).
Proof.
  revert done_ m. induction rest as [|s rest IH]; intros done_ m E.
  - cbn. unfold joins. rewrite <- (app_nil_r (map Join _)). apply fut_joins. done.
  - rewrite (imap_S (fun i s => [Decl i s; SpawnCopy i; End_ i])). cbn [concat app fut]. split.
    + exists s. rewrite put_eq. split; [done|]. rewrite E, lookup_app_r by lia. by rewrite Nat.sub_diag.
    + assert (length (done_ ++ [s]) = S (length done_)) as L by (rewrite app_length; cbn; lia).
      pose proof (IH (done_ ++ [s]) (put (length done_) None (put (length done_) (Some s) m))) as IH'. rewrite L in IH'. apply IH'. by rewrite <- app_assoc.
Qed.
Lemma copy_own seeds : ownSeeds (copySeeds seeds) seeds.
Proof. apply fine_own. by apply (copy_fut seeds [] seeds). Qed.

(** ** Elements of a vector that outlives the threads *)
Lemma guarded_joins x t ts p : t ∈ ts -> guarded x t (map Join ts ++ p).
Proof. induction 1 as [|? ? ? _ IH]; cbn [map app guarded]; [by left|by right]. Qed.
Lemma guarded_vec x t k rest p : (x < k)%nat -> guarded x t p -> guarded x t (concat (imap (fun i s => [Set_ (k + i)%nat s; Spawn (k + i)%nat]) rest) ++ p).
Proof.
  revert k. induction rest as [|s rest IH]; intros k Hk Hp; [done|]. rewrite (imap_S (fun i s => [Set_ i s; Spawn i])). cbn [concat app guarded].
  split; [lia|]. apply IH; [lia|done].
Qed.
Lemma fut_ends seeds xs m n : fut seeds (map End_ xs) m n.
Proof. revert m. induction xs as [|x xs IH]; intros m; cbn [map fut]; [done|]. apply IH. Qed.
Lemma vec_fut seeds done_ rest m : seeds = done_ ++ rest ->
  fut seeds (concat (imap (fun i s => [Set_ (length done_ + i)%nat s; Spawn (length done_ + i)%nat]) rest) ++ joins (length seeds) ++ map End_ (seq 0 (length seeds))) m (length done_).
Proof.
  revert done_ m. induction rest as [|s rest IH]; intros done_ m E.
  - cbn [imap concat app]. apply fut_joins. intros. apply fut_ends.
  - rewrite (imap_S (fun i s => [Set_ i s; Spawn i])). cbn [concat app fut]. split_and!.
    + exists s. rewrite put_eq. split; [done|]. rewrite E, lookup_app_r by lia. by rewrite Nat.sub_diag.
    + apply guarded_vec; [lia|]. apply guarded_joins. apply elem_of_seq. rewrite E, app_length. cbn. lia.
    + assert (length (done_ ++ [s]) = S (length done_)) as L by (rewrite app_length; cbn; lia).
      pose proof (IH (done_ ++ [s]) (put (length done_) (Some s) m)) as IH'. rewrite L in IH'. apply IH'. by rewrite <- app_assoc.
Qed.
Lemma fut_decls seeds xs p m n : (forall m', fut seeds p m' n) -> fut seeds (map (fun i => Decl i 0) xs ++ p) m n.
Proof. intros H. revert m. induction xs as [|x xs IH]; intros m; cbn [map app fut]; done. Qed.
Lemma vector_own seeds : ownSeeds (vectorSeeds seeds) seeds.
Proof. apply fine_own. apply fut_decls. intros m. by apply (vec_fut seeds [] seeds). Qed.

(** ** Executions *)
Lemma rtc_joins rs (ts : list nat) m p : (forall t, t ∈ ts -> exists r, rs !! t = Some r) -> rtc cstep (mkC (map Join ts ++ p) m (map Has rs)) (mkC p m (map Has rs)).
Proof.
  induction ts as [|t ts IH]; intros H; [constructor|]. cbn [map app]. destruct (H t) as [r Hr]; [left|].
  eapply rtc_l; [eapply (S_join t r); by rewrite list_lookup_fmap, Hr|]. apply IH. intros t' Ht'. apply H. by right.
Qed.
Lemma joins_all rs m p : rtc cstep (mkC (joins (length rs) ++ p) m (map Has rs)) (mkC p m (map Has rs)).
Proof. apply rtc_joins. intros t Ht. apply elem_of_seq in Ht. apply lookup_lt_is_Some_2. lia. Qed.
(** All threads read now. *)
Lemma reads_all p m pre xs : rtc cstep (mkC p m (map Has pre ++ map Ref xs)) (mkC p m (map Has (pre ++ map m xs))).
Proof.
  revert pre. induction xs as [|x xs IH]; intros pre; cbn [map].
  - rewrite !app_nil_r. constructor.
  - eapply rtc_l.
    + eapply (S_ref (length pre) x). rewrite lookup_app_r by (by rewrite map_length). by rewrite map_length, Nat.sub_diag.
    + rewrite insert_app_r_alt by (by rewrite map_length). rewrite map_length, Nat.sub_diag. cbn [insert list_insert].
      specialize (IH (pre ++ [m x])). rewrite map_app in IH. cbn [map] in IH. rewrite <- !app_assoc in IH. done.
Qed.
(** DCW: the spawning thread runs through its loop first. *)
Lemma dcw_loop k rest p m ts : exists m', (forall i, (k <= i < k + length rest)%nat -> m' i = None) /\ (forall i, (i < k)%nat -> m' i = m i) /\
  rtc cstep (mkC (concat (imap (fun i s => [Decl (k + i)%nat s; Spawn (k + i)%nat; End_ (k + i)%nat]) rest) ++ p) m ts) (mkC p m' (ts ++ map Ref (seq k (length rest)))).
Proof.
  revert k m ts. induction rest as [|s rest IH]; intros k m ts.
  - exists m. split_and!; [cbn; lia|done|]. cbn. rewrite app_nil_r. constructor.
  - destruct (IH (S k) (put k None (put k (Some s) m)) (ts ++ [Ref k])) as (m' & H1 & H2 & H3). exists m'. split_and!.
    + intros i Hi. destruct (decide (i = k)) as [->|Hne]; [rewrite H2 by lia; apply put_eq|apply H1; cbn in Hi; lia].
    + intros i Hi. rewrite H2 by lia. rewrite !put_ne by lia. done.
    + rewrite (imap_S (fun i s => [Decl i s; Spawn i; End_ i])). cbn [concat app]. do 3 (eapply rtc_l; [constructor|]). rewrite <- app_assoc in H3. exact H3.
Qed.
Lemma dcw_dangling seeds : mayRead (dcwSeeds seeds) (replicate (length seeds) None).
Proof.
  unfold mayRead, dcwSeeds, cinit. destruct (dcw_loop 0 seeds (joins (length seeds)) (fun _ => None) []) as (m' & H1 & _ & H3). exists m'.
  etransitivity; [exact H3|]. cbn [app]. etransitivity; [apply (reads_all _ _ [])|]. cbn [map app].
  assert (map m' (seq 0 (length seeds)) = replicate (length seeds) None) as ->.
  { apply list_eq. intros i. rewrite list_lookup_fmap. destruct (decide (i < length seeds)%nat) as [Hi|Hi].
    - rewrite lookup_seq_lt, lookup_replicate_2 by done. cbn. f_equal. apply H1. lia.
    - rewrite (proj2 (lookup_ge_None (seq _ _) i)) by (rewrite seq_length; lia). rewrite (proj2 (lookup_ge_None (replicate _ _) i)); [done|]. rewrite replicate_length. lia. }
  pose proof (joins_all (replicate (length seeds) None) m' []) as Hj. rewrite replicate_length, app_nil_r in Hj. exact Hj.
Qed.
(** On the stack: the last seed is there for all of them. *)
Lemma stack_loop rest p m ts s0 : m 0%nat = Some s0 -> exists m', m' 0%nat = last (s0 :: rest) /\
  rtc cstep (mkC (concat (map (fun s => [Set_ 0 s; Spawn 0]) rest) ++ p) m ts) (mkC p m' (ts ++ replicate (length rest) (Ref 0))).
Proof.
  revert m ts s0. induction rest as [|s rest IH]; intros m ts s0 Hm.
  - exists m. split; [done|]. cbn. rewrite app_nil_r. constructor.
  - destruct (IH (put 0 (Some s) m) (ts ++ [Ref 0]) s) as (m' & H1 & H2); [apply put_eq|]. exists m'. split; [by rewrite H1|].
    cbn [map concat app]. do 2 (eapply rtc_l; [constructor|]). rewrite <- app_assoc in H2. exact H2.
Qed.
Lemma dcw_shared seeds s : last seeds = Some s -> mayRead (dcwStack seeds) (replicate (length seeds) (Some s)).
Proof.
  intros Hl. destruct seeds as [|s0 rest]; [done|]. unfold mayRead, dcwStack, cinit. cbn [map concat app].
  destruct (stack_loop rest (joins (length (s0 :: rest))) (put 0 (Some s0) (fun _ => None)) [Ref 0] s0) as (m' & H1 & H2); [apply put_eq|]. exists m'.
  do 2 (eapply rtc_l; [constructor|]). etransitivity; [exact H2|].
  change ([Ref 0] ++ replicate (length rest) (Ref 0)) with (replicate (length (s0 :: rest)) (Ref 0)).
  assert (replicate (length (s0 :: rest)) (Ref 0) = map Ref (replicate (length (s0 :: rest)) 0%nat)) as -> by (symmetry; apply (fmap_replicate Ref)).
  etransitivity; [apply (reads_all _ _ [])|]. cbn [map app].
  assert (map m' (replicate (length (s0 :: rest)) 0%nat) = replicate (length (s0 :: rest)) (Some s)) as -> by (etransitivity; [apply (fmap_replicate m')|by rewrite H1, Hl]).
  pose proof (joins_all (replicate (length (s0 :: rest)) (Some s)) m' []) as Hj. rewrite replicate_length, app_nil_r in Hj. exact Hj.
Qed.

(** DCW: a thread whose variable has not ended reads the seed drawn for it. *)
Definition dfine (seeds : list N) (s : cstate) : Prop :=
  exists k, length (threads s) = k /\ (forall x v, mem s x = Some v -> seeds !! x = Some v) /\
  (forall t th, threads s !! t = Some th -> match th with Ref x => x = t | Copy v => seeds !! t = Some v | Has r => r = None \/ r = seeds !! t end) /\
  ((exists rest ds, seeds = ds ++ rest /\ length ds = k /\ prog s = concat (imap (fun i x => [Decl (k + i)%nat x; Spawn (k + i)%nat; End_ (k + i)%nat]) rest) ++ joins (length seeds)) \/
   (exists rest ds x, seeds = ds ++ x :: rest /\ length ds = k /\ prog s = Spawn k :: End_ k :: concat (imap (fun i x => [Decl (S k + i)%nat x; Spawn (S k + i)%nat; End_ (S k + i)%nat]) rest) ++ joins (length seeds)) \/
   (exists rest ds k', k = S k' /\ seeds = ds ++ rest /\ length ds = k /\ prog s = End_ k' :: concat (imap (fun i x => [Decl (k + i)%nat x; Spawn (k + i)%nat; End_ (k + i)%nat]) rest) ++ joins (length seeds)) \/
   (exists ts, prog s = map Join ts)).
Lemma dfine_step seeds s s' : dfine seeds s -> cstep s s' -> dfine seeds s'.
Proof.
  intros (k & Hk & Hm & Ht & Hp) Hs. unfold dfine. destruct Hs as [x v p m ts|x v p m ts|x p m ts|x v p m ts E|x p m ts|t r p m ts E|t x p m ts E|t v p m ts E]; cbn [prog mem threads] in *.
  - exists k. destruct Hp as [(rest & ds & E & L & Hp)|[(rest & ds & y & E & L & Hp)|[(rest & ds & k' & ? & E & L & Hp)|(ts' & Hp)]]]; [|done|done|by destruct ts'].
    destruct rest as [|y rest]; [cbn in Hp; unfold joins in Hp; destruct (length seeds); done|].
    rewrite (imap_S (fun i s => [Decl i s; Spawn i; End_ i])) in Hp. cbn [concat app] in Hp. injection Hp as -> -> ->. split_and!; [done| |done|].
    + intros x' v'. unfold put. destruct (Nat.eqb_spec x' k) as [->|]; [|apply Hm]. intros [= ->]. rewrite E, lookup_app_r by lia. by rewrite L, Nat.sub_diag.
    + right; left. by exists rest, ds, y.
  - destruct Hp as [(rest & ds & E & L & Hp)|[(rest & ds & y & E & L & Hp)|[(rest & ds & k' & ? & E & L & Hp)|(ts' & Hp)]]]; [|done|done|by destruct ts'].
    destruct rest as [|y rest]; [cbn in Hp; unfold joins in Hp; destruct (length seeds); done|]. rewrite (imap_S (fun i s => [Decl i s; Spawn i; End_ i])) in Hp. done.
  - exists (S k). destruct Hp as [(rest & ds & E & L & Hp)|[(rest & ds & y & E & L & Hp)|[(rest & ds & k' & ? & E & L & Hp)|(ts' & Hp)]]]; [| |done|by destruct ts'].
    + destruct rest as [|y rest]; [cbn in Hp; unfold joins in Hp; destruct (length seeds); done|]. rewrite (imap_S (fun i s => [Decl i s; Spawn i; End_ i])) in Hp. done.
    + injection Hp as -> ->. split_and!; [rewrite app_length; cbn; lia|done| |].
      * intros t th H. apply lookup_app_Some in H as [H|[Hl H]]; [by apply Ht|]. apply list_lookup_singleton_Some in H as [Ht0 <-]. lia.
      * right; right; left. exists rest, (ds ++ [y]), k. split_and!; [done|by rewrite <- app_assoc|rewrite app_length; cbn; lia|done].
  - destruct Hp as [(rest & ds & E' & L & Hp)|[(rest & ds & y & E' & L & Hp)|[(rest & ds & k' & ? & E' & L & Hp)|(ts' & Hp)]]]; [|done|done|by destruct ts'].
    destruct rest as [|y rest]; [cbn in Hp; unfold joins in Hp; destruct (length seeds); done|]. rewrite (imap_S (fun i s => [Decl i s; Spawn i; End_ i])) in Hp. done.
  - exists k. destruct Hp as [(rest & ds & E & L & Hp)|[(rest & ds & y & E & L & Hp)|[(rest & ds & k' & ? & E & L & Hp)|(ts' & Hp)]]]; [|done| |by destruct ts'].
    + destruct rest as [|y rest]; [cbn in Hp; unfold joins in Hp; destruct (length seeds); done|]. rewrite (imap_S (fun i s => [Decl i s; Spawn i; End_ i])) in Hp. done.
    + injection Hp as -> ->. split_and!; [done| |done|left; by exists rest, ds]. intros x' v'. unfold put. destruct (x' =? k')%nat; [done|apply Hm].
  - exists k. destruct Hp as [(rest & ds & E' & L & Hp)|[(rest & ds & y & E' & L & Hp)|[(rest & ds & k' & ? & E' & L & Hp)|(ts' & Hp)]]]; [|done|done|].
    + split_and!; [done..|]. right; right; right. destruct rest as [|y rest]; [|by rewrite (imap_S (fun i s => [Decl i s; Spawn i; End_ i])) in Hp].
      cbn [imap concat app] in Hp. unfold joins in Hp. destruct (seq 0 (length seeds)) as [|a l]; [done|]. injection Hp as _ ->. by exists l.
    + split_and!; [done..|]. right; right; right. destruct ts' as [|a l]; [done|]. injection Hp as _ ->. by exists l.
  - exists k. split_and!; [by rewrite insert_length|done| |done]. intros t' th H. apply list_lookup_insert_Some in H as [(-> & <- & _)|[_ H]]; [|by apply Ht].
    pose proof (Ht _ _ E) as ->. destruct (m t') as [v|] eqn:Ev; [right; symmetry; by apply Hm|by left].
  - exists k. split_and!; [by rewrite insert_length|done| |done]. intros t' th H. apply list_lookup_insert_Some in H as [(-> & <- & _)|[_ H]]; [|by apply Ht].
    pose proof (Ht _ _ E) as Hv. cbn in Hv. by right.
Qed.
Lemma dcw_own seeds s t r : rtc cstep (cinit (dcwSeeds seeds)) s -> threads s !! t = Some (Has r) -> r = None \/ r = seeds !! t.
Proof.
  intros Hs Hr. assert (dfine seeds s) as (k & _ & _ & Ht & _); [|by specialize (Ht _ _ Hr)].
  assert (dfine seeds (cinit (dcwSeeds seeds))) as Hi.
  { exists 0%nat. split_and!; [done|done|intros ? ? H; cbn in H; by rewrite lookup_nil in H|]. left. by exists seeds, []. }
  clear -Hs Hi. induction Hs as [|s1 s2 s3 H1 _ IH]; [done|]. apply IH. by eapply dfine_step.
Qed.

(** ** Nothing is stuck *)
Fixpoint able (p : list op) (m : nat -> option N) (n : nat) : Prop :=
  match p with
  | [] => True
  | (Decl x v | Set_ x v) :: p' => able p' (put x (Some v) m) n
  | End_ x :: p' => able p' (put x None m) n
  | Join t :: p' => (t < n)%nat /\ able p' m n
  | Spawn x :: p' => able p' m (S n)
  | SpawnCopy x :: p' => (exists v, m x = Some v) /\ able p' m (S n)
  end.
Lemma able_step s s' : able (prog s) (mem s) (length (threads s)) -> cstep s s' -> able (prog s') (mem s') (length (threads s')).
Proof. intros H Hs. destruct Hs; cbn [prog mem threads able] in *; rewrite ?app_length, ?Nat.add_1_r, ?insert_length; try done; by destruct H. Qed.
Lemma able_stuck p : able p (fun _ => None) 0 -> noStuck p.
Proof.
  intros H s Hs. assert (able (prog s) (mem s) (length (threads s))) as Ha.
  { assert (able (prog (cinit p)) (mem (cinit p)) (length (threads (cinit p)))) as Hi by done. clear H. induction Hs as [|s1 s2 s3 H1 _ IH]; [done|]. apply IH. by eapply able_step. }
  destruct s as [[|o p'] m ts]; [by left|]. right. destruct o as [x v|x v|x|x|x|t]; cbn [prog mem threads able] in Ha; try by eexists; constructor.
  - destruct Ha as [(v & Hv) _]. eexists. by econstructor.
  - destruct Ha as [Ht _]. destruct (lookup_lt_is_Some_2 _ _ Ht) as [[x|v|r] E]; eexists; [by eapply S_ref|by eapply S_own|by eapply S_join].
Qed.
Lemma able_joins k ts p m n : (forall t, t ∈ ts -> (t < n)%nat) -> k = n -> able p m n -> able (map Join ts ++ p) m n.
Proof. intros H -> Hp. induction ts as [|t ts IH]; [done|]. cbn [map app able]. split; [apply H; left|]. apply IH. intros t' Ht'. apply H. by right. Qed.
Lemma able_ends xs m n : able (map End_ xs) m n.
Proof. revert m. induction xs as [|x xs IH]; intros m; cbn [map able]; [done|]. apply IH. Qed.
Lemma joins_able n p m : able p m n -> able (joins n ++ p) m n.
Proof. intros H. apply (able_joins n); [|done|done]. intros t Ht. apply elem_of_seq in Ht. lia. Qed.
Lemma copy_able k rest p m : (forall m', able p m' (k + length rest)) -> able (concat (imap (fun i s => [Decl (k + i)%nat s; SpawnCopy (k + i)%nat; End_ (k + i)%nat]) rest) ++ p) m k.
Proof.
  revert k m. induction rest as [|s rest IH]; intros k m H; [cbn; specialize (H m); by rewrite Nat.add_0_r in H|].
  rewrite (imap_S (fun i s => [Decl i s; SpawnCopy i; End_ i])). cbn [concat app able]. split; [exists s; apply put_eq|]. apply IH. intros m'. specialize (H m'). cbn [length] in H. by rewrite Nat.add_succ_r in H.
Qed.
Lemma dcw_able k rest p m : (forall m', able p m' (k + length rest)) -> able (concat (imap (fun i s => [Decl (k + i)%nat s; Spawn (k + i)%nat; End_ (k + i)%nat]) rest) ++ p) m k.
Proof.
  revert k m. induction rest as [|s rest IH]; intros k m H; [cbn; specialize (H m); by rewrite Nat.add_0_r in H|].
  rewrite (imap_S (fun i s => [Decl i s; Spawn i; End_ i])). cbn [concat app able]. apply IH. intros m'. specialize (H m'). cbn [length] in H. by rewrite Nat.add_succ_r in H.
Qed.
Lemma vec_able k rest p m : (forall m', able p m' (k + length rest)) -> able (concat (imap (fun i s => [Set_ (k + i)%nat s; Spawn (k + i)%nat]) rest) ++ p) m k.
Proof.
  revert k m. induction rest as [|s rest IH]; intros k m H; [cbn; specialize (H m); by rewrite Nat.add_0_r in H|].
  rewrite (imap_S (fun i s => [Set_ i s; Spawn i])). cbn [concat app able]. apply IH. intros m'. specialize (H m'). cbn [length] in H. by rewrite Nat.add_succ_r in H.
Qed.
Lemma able_decls xs p m n : (forall m', able p m' n) -> able (map (fun i => Decl i 0) xs ++ p) m n.
Proof. intros H. revert m. induction xs as [|x xs IH]; intros m; cbn [map app able]; done. Qed.
Lemma copy_stuck seeds : noStuck (copySeeds seeds).
Proof. apply able_stuck, (copy_able 0). intros m. rewrite <- (app_nil_r (joins _)). by apply joins_able. Qed.
Lemma dcw_stuck seeds : noStuck (dcwSeeds seeds).
Proof. apply able_stuck, (dcw_able 0). intros m. rewrite <- (app_nil_r (joins _)). by apply joins_able. Qed.
Lemma vector_stuck seeds : noStuck (vectorSeeds seeds).
Proof. apply able_stuck, able_decls. intros m. apply (vec_able 0). intros m'. apply joins_able, able_ends. Qed.
