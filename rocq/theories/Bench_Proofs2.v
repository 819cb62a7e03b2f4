(** Conversations of two parties, the drivers and the ping test. *)
From stdpp Require Import sorting sets.
From Verif Require Import Base Sched_Model Sched_Spec Sched_Proofs Sched_Proofs2 Sched_Proofs3 Bench_Model Bench_Spec Bench_Proofs.

Lemma exec_cons s l s1 tr s2 : step s l s1 -> exec s1 tr s2 -> exec s (l :: tr) s2.
Proof.
  intros Hs H. induction H as [|s1 tr s2 l2 s3 H IH H2].
  - change [l] with ([] ++ [l]). eapply exec_snoc; [constructor|done].
  - change (l :: tr ++ [l2]) with ((l :: tr) ++ [l2]). eapply exec_snoc; [by apply IH|done].
Qed.
Lemma converse_exec x y a b x' y' : converse x y a b x' y' -> forall old1 old2 log,
  sentOn (Chan 0 true) log = old1 ++ x -> sentOn (Chan 0 false) log = old2 ++ y ->
  exists tr s', exec (mkState [script true (length old2) a; script false (length old1) b] log) tr s' /\ finished s'.
Proof.
  induction 1 as [x y|x y k a b x' y' _ IH|x y k a b x' y' _ IH|x y k a b x' y' _ IH|x y k a b x' y' _ IH]; intros old1 old2 log E1 E2.
  - exists [], (mkState [[]; []] log). split; [constructor|]. repeat constructor.
  - destruct (IH old1 old2 (log ++ [(Chan 0 true, k)])) as (tr & s' & H & Hf).
    { rewrite sentOn_app, E1, <- app_assoc. done. } { rewrite sentOn_app, E2. unfold sentOn at 1. cbn. by rewrite app_nil_r. }
    exists ((0%nat, Snd (Chan 0 true) k) :: tr), s'. split; [|done]. eapply exec_cons; [|exact H].
    change log with (sentLog (mkState [Snd (Chan 0 true) k :: script true (length old2) a; script false (length old1) b] log)) at 2.
    exact (step_at (mkState [Snd (Chan 0 true) k :: script true (length old2) a; script false (length old1) b] log) 0 _ _ eq_refl I).
  - destruct (IH old1 (old2 ++ [k]) log E1) as (tr & s' & H & Hf). { by rewrite E2, <- app_assoc. }
    exists ((0%nat, Get (Chan 0 false) (length old2) k) :: tr), s'. split; [|done]. eapply exec_cons; [|exact H].
    rewrite app_length, Nat.add_1_r.
    refine (step_at (mkState [Get (Chan 0 false) (length old2) k :: script true (S (length old2)) a; script false (length old1) b] log) 0 _ _ eq_refl _).
    cbn [enabled sentLog]. rewrite E2, lookup_app_r, Nat.sub_diag by lia. done.
  - destruct (IH old1 old2 (log ++ [(Chan 0 false, k)])) as (tr & s' & H & Hf).
    { rewrite sentOn_app, E1. unfold sentOn at 1. cbn. by rewrite app_nil_r. } { rewrite sentOn_app, E2, <- app_assoc. done. }
    exists ((1%nat, Snd (Chan 0 false) k) :: tr), s'. split; [|done]. eapply exec_cons; [|exact H].
    exact (step_at (mkState [script true (length old2) a; Snd (Chan 0 false) k :: script false (length old1) b] log) 1 _ _ eq_refl I).
  - destruct (IH (old1 ++ [k]) old2 log) as (tr & s' & H & Hf). { by rewrite E1, <- app_assoc. } { done. }
    exists ((1%nat, Get (Chan 0 true) (length old1) k) :: tr), s'. split; [|done]. eapply exec_cons; [|exact H].
    rewrite app_length, Nat.add_1_r.
    refine (step_at (mkState [script true (length old2) a; Get (Chan 0 true) (length old1) k :: script false (S (length old1)) b] log) 1 _ _ eq_refl _).
    cbn [enabled sentLog]. rewrite E1, lookup_app_r, Nat.sub_diag by lia. done.
Qed.
Lemma script_elem me l : forall j e, e ∈ script me j l -> (exists k, e = Snd (Chan 0 me) k) \/ exists i k, e = Get (Chan 0 (negb me)) i k.
Proof.
  induction l as [|[[] k] l IH]; intros j e H; cbn in H; [by apply elem_of_nil in H|..]; apply elem_of_cons in H as [->|H]; eauto.
Qed.
Lemma two_one a b : oneSender (twoParties a b).
Proof.
  intros c d i j li lj k k' Hi Hj Si Sj. unfold twoParties in *.
  destruct i as [|[|i]]; [| |done]; destruct j as [|[|j]]; try done; cbn in Hi, Hj; injection Hi as <-; injection Hj as <-.
  - apply script_elem in Si as [(k1 & X)|(? & ? & X)]; [|discriminate X]. apply script_elem in Sj as [(k2 & X2)|(? & ? & X2)]; [|discriminate X2]. congruence.
  - apply script_elem in Si as [(k1 & X)|(? & ? & X)]; [|discriminate X]. apply script_elem in Sj as [(k2 & X2)|(? & ? & X2)]; [|discriminate X2]. congruence.
Qed.
Lemma two_channels a b : channelGets (twoParties a b).
Proof.
  unfold channelGets, twoParties. repeat constructor; apply Forall_forall; intros e He; apply script_elem in He as [(k & ->)|(i & k & ->)]; done.
Qed.
Lemma converse_completes a b x' y' : converse [] [] a b x' y' -> completes (twoParties a b).
Proof.
  intros H. destruct (converse_exec _ _ _ _ _ _ H [] [] [] eq_refl eq_refl) as (tr & s & He & Hf). exact (one_suffices _ tr s (two_one a b) (two_channels a b) He Hf).
Qed.

Lemma converse_app x y a b x1 y1 : converse x y a b x1 y1 -> forall a2 b2 x2 y2, converse x1 y1 a2 b2 x2 y2 -> converse x y (a ++ a2) (b ++ b2) x2 y2.
Proof. induction 1; intros a2 b2 x2 y2 H2; cbn; [done|constructor; auto..]. Qed.
Lemma tx_all y b x' y' a n big : forall x, converse (x ++ replicate n big) y a b x' y' -> converse x y (replicate n (tx big) ++ a) b x' y'.
Proof.
  induction n as [|n IH]; intros x H; cbn in *; [by rewrite app_nil_r in H|]. constructor. apply IH. by rewrite <- app_assoc.
Qed.
Lemma tx_all2 x a x' y' b n big : forall y, converse x (y ++ replicate n big) a b x' y' -> converse x y a (replicate n (tx big) ++ b) x' y'.
Proof.
  induction n as [|n IH]; intros y H; cbn in *; [by rewrite app_nil_r in H|]. constructor. apply IH. by rewrite <- app_assoc.
Qed.
Lemma rx_all x y a b x' y' n big : converse x y a b x' y' -> converse x (replicate n big ++ y) (replicate n (rx big) ++ a) b x' y'.
Proof. intros H. induction n as [|n IH]; cbn; [done|]. by constructor. Qed.
Lemma rx_all2 x y a b x' y' n big : converse x y a b x' y' -> converse (replicate n big ++ x) y a (replicate n (rx big) ++ b) x' y'.
Proof. intros H. induction n as [|n IH]; cbn; [done|]. by constructor. Qed.
Lemma converse_repeat a b n : converse [] [] a b [] [] -> converse [] [] (concat (replicate n a)) (concat (replicate n b)) [] [].
Proof. intros H. induction n as [|n IH]; cbn; [constructor|]. by apply (converse_app _ _ _ _ _ _ H). Qed.
Lemma burst n big : converse [] [] (rx 1 :: replicate n (tx big)) (tx 1 :: replicate n (rx big)) [] [].
Proof.
  apply c_tx2. cbn. apply c_rx1. rewrite <- (app_nil_r (replicate n (tx big))). apply tx_all. cbn. rewrite <- (app_nil_r (replicate n big)), <- (app_nil_r (replicate n (rx big))). apply rx_all2. constructor.
Qed.
Lemma burst2 n big : converse [] [] (tx 1 :: replicate n (rx big)) (rx 1 :: replicate n (tx big)) [] [].
Proof.
  apply c_tx1. cbn. apply c_rx2. rewrite <- (app_nil_r (replicate n (tx big))). apply tx_all2. cbn. rewrite <- (app_nil_r (replicate n big)), <- (app_nil_r (replicate n (rx big))). apply rx_all. constructor.
Qed.
Lemma swap_both k : converse [] [] [tx k; rx k] [tx k; rx k] [] [].
Proof. apply c_tx1, c_tx2. cbn. apply c_rx1, c_rx2. constructor. Qed.
Lemma swap_one k : converse [] [] [tx k; rx k] [rx k; tx k] [] [].
Proof. apply c_tx1. cbn. apply c_rx2, c_tx2. cbn. apply c_rx1. constructor. Qed.
Lemma one_way k : converse [] [] [tx k] [rx k] [] [].
Proof. apply c_tx1. cbn. apply c_rx2. constructor. Qed.
Lemma ping_converse T M big : converse [] [] (pingSender T M big) (pingReceiver T M big) [] [].
Proof.
  unfold pingSender, pingReceiver. change [tx 1; rx 1; tx 1; rx 1] with ([tx 1; rx 1] ++ [tx 1; rx 1]). change [rx 1; tx 1; rx 1; tx 1] with ([rx 1; tx 1] ++ [rx 1; tx 1]).
  apply (converse_app _ _ _ _ [] []); [apply (converse_app _ _ _ _ [] []); apply swap_one|]. apply (converse_app _ _ _ _ [] []); [apply converse_repeat, burst|].
  apply (converse_app _ _ _ _ [] []); [apply converse_repeat, burst2|]. apply converse_repeat, converse_repeat, swap_both.
Qed.
Lemma ping_completes T M big : completes (twoParties (pingSender T M big) (pingReceiver T M big)).
Proof. exact (converse_completes _ _ _ _ (ping_converse T M big)). Qed.

(** Bytes sent by one are the bytes received by the other, up to what is unread. *)
Definition sum (l : list N) : N := foldr N.add 0 l.
Lemma sum_app l1 l2 : sum (l1 ++ l2) = sum l1 + sum l2.
Proof. unfold sum. induction l1 as [|k l IH]; cbn; [done|]. rewrite IH. lia. Qed.
Lemma total_cons d o l : total d (o :: l) = (if Bool.eqb o.1 d then o.2 else 0) + total d l.
Proof. unfold total. cbn. by destruct (Bool.eqb o.1 d). Qed.
Lemma converse_total x y a b x' y' : converse x y a b x' y' -> sum x + total true a = total false b + sum x' /\ sum y + total true b = total false a + sum y'.
Proof.
  induction 1 as [x y|x y k a b x' y' _ IH|x y k a b x' y' _ IH|x y k a b x' y' _ IH|x y k a b x' y' _ IH]; [unfold total; cbn; lia|..];
    rewrite !total_cons; rewrite ?sum_app in IH; cbn [fst snd tx rx Bool.eqb] in *; change (sum [k]) with (k + 0) in *; change (sum (k :: x)) with (k + sum x) in *; change (sum (k :: y)) with (k + sum y) in *; lia.
Qed.
Lemma counter_total dir l : counter dir l = total dir l mod two64.
Proof.
  unfold counter, total. assert (forall acc, fold_left (fun acc (o : op) => if Bool.eqb o.1 dir then (acc + o.2) mod two64 else acc) l acc mod two64 = (acc + foldr N.add 0 (map snd (List.filter (fun o : op => Bool.eqb o.1 dir) l))) mod two64) as H.
  { induction l as [|o l IH]; intros acc; cbn [fold_left List.filter]; [cbn; by rewrite N.add_0_r|]. rewrite IH. destruct (Bool.eqb o.1 dir); [|done].
    cbn [map foldr]. rewrite N.add_mod_idemp_l by (unfold two64; apply N.pow_nonzero; lia). f_equal. lia. }
  rewrite <- (N.add_0_l (foldr _ _ _)), <- H. symmetry. apply N.mod_small.
  assert (forall acc, acc < two64 -> fold_left (fun acc (o : op) => if Bool.eqb o.1 dir then (acc + o.2) mod two64 else acc) l acc < two64) as B; [|apply B; unfold two64; reflexivity].
  clear H. induction l as [|o l IH]; intros acc Ha; cbn; [done|]. apply IH. destruct (Bool.eqb o.1 dir); [|done]. apply N.mod_lt. unfold two64. apply N.pow_nonzero. lia.
Qed.
Lemma ping_counters T M big :
  counter true (pingSender T M big) = counter false (pingReceiver T M big) /\ counter true (pingReceiver T M big) = counter false (pingSender T M big).
Proof. rewrite !counter_total. destruct (converse_total _ _ _ _ _ _ (ping_converse T M big)) as [E1 E2]. change (sum []) with 0 in *. split; f_equal; lia. Qed.

(** * The drivers *)
Lemma hello_converse b : converse [] [] (hello b true) (hello b false) [] [].
Proof. destruct b; cbn; first [apply swap_one|constructor]. Qed.
Lemma between_converse b : converse [] [] (between b true) (between b false) [] [].
Proof. destruct b; cbn; first [apply swap_both|apply one_way|constructor]. Qed.
Lemma passes_same b l : passes b true l = passes b false l.
Proof. by destruct b. Qed.
Lemma bench_converse b l iniS iniR inpS inpR :
  (forall p, p ∈ passes b true l -> converse [] [] (iniS p) (iniR p) [] [] /\ converse [] [] (inpS p) (inpR p) [] []) ->
  converse [] [] (benchOps b true iniS inpS l) (benchOps b false iniR inpR l) [] [].
Proof.
  unfold benchOps. rewrite <- passes_same. generalize (passes b true l). intros ps. induction ps as [|p ps IH]; intros H; [constructor|]. cbn [map concat].
  destruct (H p ltac:(by left)) as [H1 H2]. apply (converse_app _ _ _ _ [] []); [|apply IH; intros q Hq; apply H; by right].
  apply (converse_app _ _ _ _ [] []); [apply hello_converse|]. apply (converse_app _ _ _ _ [] []); [done|]. by apply (converse_app _ _ _ _ [] []); [apply between_converse|].
Qed.
Lemma bench_completes b l iniS iniR inpS inpR :
  (forall p, p ∈ passes b true l -> converse [] [] (iniS p) (iniR p) [] [] /\ converse [] [] (inpS p) (inpR p) [] []) ->
  completes (twoParties (benchOps b true iniS inpS l) (benchOps b false iniR inpR l)).
Proof. intros H. exact (converse_completes _ _ _ _ (bench_converse _ _ _ _ _ _ H)). Qed.
