(** Proofs about the traffic of complete executions. *)
From Verif Require Import Base Partition_Model Sched_Model Sched_Spec Threads_Model Init_Spec Init_Proofs Volume_Spec.

(** Traffic of the rest of a script. *)
Definition evSize (p : bool) (e : ev) : N := match e with Snd (Chan _ d) k => if Bool.eqb d p then k else 0 | _ => 0 end.
Definition vol (p : bool) (l : list ev) : N := total (map (evSize p) l).

Lemma total_app l1 l2 : total (l1 ++ l2) = total l1 + total l2.
Proof. unfold total. induction l1 as [|x l1 IH]; cbn; [lia|]. rewrite IH. lia. Qed.
Lemma total_cons x l : total (x :: l) = x + total l.
Proof. done. Qed.
Lemma vol_app p l1 l2 : vol p (l1 ++ l2) = vol p l1 + vol p l2.
Proof. unfold vol. by rewrite map_app, total_app. Qed.
Lemma vol_cons p e l : vol p (e :: l) = evSize p e + vol p l.
Proof. done. Qed.
Lemma vol_nil p : vol p [] = 0.
Proof. done. Qed.
Lemma traffic_app p l1 l2 : traffic p (l1 ++ l2) = traffic p l1 + traffic p l2.
Proof. unfold traffic. by rewrite omap_app, total_app. Qed.
Lemma total_insert {A} (f : A -> N) (l : list A) i x y : l !! i = Some x -> total (map f (<[i := y]> l)) + f x = total (map f l) + f y.
Proof.
  intros H. rewrite <- (take_drop_middle l i x H) at 2. rewrite insert_take_drop by (by eapply lookup_lt_Some).
  rewrite !map_app, !total_app. cbn [map]. rewrite !total_cons. lia.
Qed.

Lemma exec_vol p scripts tr s : exec (start scripts) tr s -> traffic p (sentLog s) + total (map (vol p) (todo s)) = total (map (vol p) scripts).
Proof.
  intros H. remember (start scripts) as s0 eqn:E. induction H as [|s0 tr s [i e] s' H IH HS]; subst; [done|].
  specialize (IH eq_refl). inversion HS as [s1 i' e' rest Ht He]; subst. cbn [todo sentLog]. pose proof (total_insert (vol p) _ _ _ rest Ht) as HI.
  rewrite vol_cons in HI. assert (traffic p (effect e (sentLog s)) = traffic p (sentLog s) + evSize p e) as ->; [|lia].
  destruct e as [q k|q j k|q n|a]; cbn [effect evSize]; try lia; [|destruct q; lia..]. rewrite traffic_app. f_equal. unfold traffic.
  destruct q as [c d|b n]; [|done]. cbn. destruct (Bool.eqb d p); unfold total; cbn; lia.
Qed.
Lemma vol_finished scripts a b : total (map (vol true) scripts) = a -> total (map (vol false) scripts) = b -> sendsInAll scripts a b.
Proof.
  intros Ha Hb tr s H HF. assert (forall p, total (map (vol p) (todo s)) = 0) as Z.
  { intros p. unfold finished in HF. induction (todo s) as [|l ls IH]; [done|]. apply Forall_cons in HF as [-> HF]. cbn. specialize (IH HF). unfold total in IH. rewrite IH. done. }
  split; [rewrite <- Ha, <- (exec_vol true _ _ _ H), Z|rewrite <- Hb, <- (exec_vol false _ _ _ H), Z]; lia.
Qed.

(** ** Building blocks *)

Lemma vol_sends p c d ks : vol p (sends (Chan c d) ks) = if Bool.eqb d p then total ks else 0.
Proof.
  unfold sends. induction ks as [|k ks IH]; cbn [map]; [by destruct (Bool.eqb d p)|]. rewrite vol_cons, IH. cbn [evSize].
  destruct (Bool.eqb d p); [|done]. done.
Qed.
Lemma vol_gets p q j ks : vol p (gets q j ks) = 0.
Proof.
  unfold gets. revert j. induction ks as [|k ks IH]; intros j; [done|]. rewrite imap_cons, vol_cons. cbn [evSize].
  rewrite (imap_ext _ (fun i k => Get q (S j + i) k)); [by rewrite IH|]. intros i x _. cbn. f_equal. lia.
Qed.
Lemma vol_talk p me c j m : vol p (talk me c j m) = if Bool.eqb p me then said me m else 0.
Proof.
  unfold said. revert j. induction m as [|[d k] m IH]; intros j; cbn [talk List.filter]; [by destruct (Bool.eqb p me)|]. cbn [fst].
  destruct (Bool.eqb d me) eqn:E.
  - rewrite vol_cons, IH. cbn [evSize map snd]. apply Bool.eqb_prop in E as ->.
    destruct me, p; cbn; done.
  - rewrite vol_cons, IH. done.
Qed.
Lemma vol_barrier p q b T : vol p (barrier q b T) = 0.
Proof. done. Qed.
Lemma perThread_ext T f g : (forall t, (t < T)%nat -> f t = g t) -> perThread T f = perThread T g.
Proof. intros H. unfold perThread. f_equal. apply map_ext_in. intros t Ht. apply in_seq in Ht. apply H. lia. Qed.
Lemma perThread_add T f g : perThread T (fun t => f t + g t) = perThread T f + perThread T g.
Proof.
  unfold perThread. induction (seq 0 T) as [|t l IH]; [done|]. cbn [map]. unfold total in *. cbn [foldr]. rewrite IH. lia.
Qed.
Lemma perThread_mul T f k : perThread T (fun t => k * f t) = k * perThread T f.
Proof.
  unfold perThread. induction (seq 0 T) as [|t l IH]; unfold total in *; cbn [map foldr]; [lia|]. rewrite IH. lia.
Qed.
Lemma perThread_const T k : perThread T (fun _ => k) = N.of_nat T * k.
Proof.
  unfold perThread. replace T with (length (seq 0 T)) at 2 by apply seq_length. induction (seq 0 T) as [|t l IH]; unfold total in *; cbn [map foldr length]; [lia|]. rewrite IH. lia.
Qed.
Lemma perThread_S T f : perThread (S T) f = perThread T f + f T.
Proof. unfold perThread. rewrite seq_S, map_app, total_app. unfold total at 2. cbn. lia. Qed.
Lemma perThread_first T f k : (0 < T)%nat -> (forall t, (0 < t)%nat -> f t = 0) -> f 0%nat = k -> perThread T f = k.
Proof.
  intros HT H0 <-. destruct T as [|T]; [lia|]. clear HT. induction T as [|T IH]; [unfold perThread, total; cbn; lia|].
  rewrite perThread_S, IH, (H0 (S T)) by lia. lia.
Qed.
Lemma scripts_vol p T f : total (map (vol p) (map f (seq 0 T))) = perThread T (fun t => vol p (f t)).
Proof. unfold perThread. by rewrite map_map. Qed.

(** ** Ranges *)

Lemma telescope T (f : nat -> N) : (forall t, (t < T)%nat -> f t <= f (S t)) -> perThread T (fun t => f (S t) - f t) = f T - f 0%nat.
Proof.
  induction T as [|T IH]; intros H; [unfold perThread, total; cbn; lia|]. rewrite perThread_S, IH by (intros; apply H; lia).
  pose proof (H T ltac:(lia)). assert (f 0%nat <= f T); [|lia].
  clear IH H0. induction T as [|T IH]; [lia|]. etransitivity; [apply IH; intros; apply H; lia|]. apply H. lia.
Qed.
Lemma telescoped T (f : nat -> N) g : (forall t, (t < T)%nat -> f t <= f (S t)) -> (forall t, (t < T)%nat -> g t = f (S t) - f t) -> perThread T g = f T - f 0%nat.
Proof. intros H E. rewrite <- telescope by done. by apply perThread_ext. Qed.
Lemma even_sum n T : (0 < T)%nat -> n * N.of_nat T < two64 ->
  perThread T (fun t => (evenSplit n (N.of_nat T) (N.of_nat t)).2 - (evenSplit n (N.of_nat T) (N.of_nat t)).1) = n.
Proof.
  intros HT H. rewrite (telescoped _ (fun t => n * N.of_nat t / N.of_nat T)).
  - rewrite N.div_mul by lia. cbn [N.of_nat]. rewrite N.mul_0_r, N.div_0_l by lia. lia.
  - intros t Ht. apply N.div_le_mono; [lia|]. nia.
  - intros t Ht. unfold evenSplit. cbn [fst snd]. rewrite !N.mod_small by nia. replace (N.of_nat t + 1) with (N.of_nat (S t)) by lia. done.
Qed.
Lemma ceil_sum n T : (0 < T)%nat -> n + N.of_nat T < two64 -> N.of_nat T * ((n + N.of_nat T - 1) / N.of_nat T) < two64 ->
  perThread T (fun t => (ceilSplit n (N.of_nat T) (N.of_nat t)).2 - (ceilSplit n (N.of_nat T) (N.of_nat t)).1) = n.
Proof.
  intros HT H Hc. set (c := (n + N.of_nat T - 1) / N.of_nat T) in *.
  pose proof (ceil_div n (N.of_nat T) ltac:(lia)) as C. fold c in C.
  rewrite (telescoped _ (fun t => N.min (N.of_nat t * c) n)).
  - lia.
  - intros t Ht. nia.
  - intros t Ht. unfold ceilSplit. cbn [fst snd]. rewrite (N.mod_small (n + N.of_nat T - 1)) by lia. fold c. rewrite !N.mod_small by nia. nia.
Qed.
Lemma perThread_ranges T step cap (r : nat -> N * N) : 0 < step ->
  perThread T (fun t => total (rrCorr step cap (r t))) = cap * perThread T (fun t => (r t).2 - (r t).1).
Proof. intros H. rewrite <- perThread_mul. apply perThread_ext. intros t _. rewrite rrCorr_total by done. lia. Qed.
Lemma pieces_mul step k r : 0 < step -> total (map (fun p : N * N => p.2 * k) (piecesOf step r)) = (r.2 - r.1) * k.
Proof. intros H. by apply pieces_total. Qed.
