(** The contents of the tables of GRR18, and when their entries are too small. *)
From Coq Require Import Reals Lra Psatz.
From Verif Require Import Base Grr18_Model GrrNoise_Model GrrNoise_Spec GrrNoise_Proofs GrrNoise_Proofs2 GrrNoise_Proofs3 GrrTable_Model GrrTable_Spec.
Local Open Scope N_scope.

(** ** Contents *)
Fixpoint sortedB (l : list N) : bool := match l with a :: ((b :: _) as l') => (a <=? b) && sortedB l' | _ => true end.
Definition goodTable (t : N * N * N * Z * list N) : bool :=
  let '(_, _, _, st, l) := t in (st =? -10)%Z && (length l =? 61)%nat && sortedB l && forallb (fun x => (8 <=? x) && (x <=? 57)) l.
Lemma tables_good : forallb goodTable tables = true.
Proof. vm_compute. reflexivity. Qed.
Lemma tables_keys : map (fun t : N * N * N * Z * list N => let '(n, m, e, _, _) := t in (n, m, e)) tables = tableKeys.
Proof. vm_compute. reflexivity. Qed.
Lemma sortedB_step l : sortedB l = true -> forall i x y, l !! i = Some x -> l !! (S i) = Some y -> x <= y.
Proof.
  induction l as [|a l IH]; intros H i x y Hx Hy; [done|]. destruct l as [|b l]; [by destruct i|]. cbn [sortedB] in H. apply andb_true_iff in H as [H1 H2].
  apply N.leb_le in H1. destruct i as [|i]; [cbn in Hx, Hy; by simplify_eq|]. by apply (IH H2 i).
Qed.
Lemma sortedB_le l : sortedB l = true -> forall i j x y, (i <= j)%nat -> l !! i = Some x -> l !! j = Some y -> x <= y.
Proof.
  intros H i j. induction j as [|j IH]; intros x y Hij Hx Hy.
  - replace i with 0%nat in Hx by lia. rewrite Hx in Hy. simplify_eq. lia.
  - destruct (decide (i = S j)) as [->|Hn]; [rewrite Hx in Hy; simplify_eq; lia|].
    assert (is_Some (l !! j)) as [z Hz] by (apply lookup_lt_is_Some; apply lookup_lt_Some in Hy; lia).
    pose proof (IH x z ltac:(lia) Hx Hz). pose proof (sortedB_step l H j z y Hz Hy). lia.
Qed.
Lemma tableOf_in n m eps st l : tableOf n m eps = Some (st, l) -> (n, m, eps, st, l) ∈ tables.
Proof.
  unfold tableOf. generalize tables. intros ts.
  assert (forall o, foldl (fun o (t : N * N * N * Z * list N) => let '(tn, tm, te, st, l) := t in if (te =? eps) && (tn =? n) && (tm =? m) then Some (st, l) else o) o ts = Some (st, l) ->
    o = Some (st, l) \/ (n, m, eps, st, l) ∈ ts) as H.
  { induction ts as [|[[[[tn tm] te] st'] l'] ts IH]; intros o Ho; [by left|]. cbn in Ho. apply IH in Ho as [Ho|Ho]; [|right; by right].
    destruct (N.eqb_spec te eps) as [->|]; [|by left]. destruct (N.eqb_spec tn n) as [->|]; [|by left]. destruct (N.eqb_spec tm m) as [->|]; [|by left]. cbn in Ho. simplify_eq.
    right. left. }
  intros HH. by apply H in HH as [HH|HH].
Qed.
Lemma tableOf_good n m eps st l : tableOf n m eps = Some (st, l) -> st = (-10)%Z /\ length l = 61%nat /\ sortedB l = true /\ Forall (fun x => 8 <= x <= 57) l.
Proof.
  intros H. apply tableOf_in in H. pose proof tables_good as G. rewrite forallb_forall in G. specialize (G _ (proj1 (elem_of_list_In _ _) H)). cbn in G.
  apply andb_true_iff in G as [G G4]. apply andb_true_iff in G as [G G3]. apply andb_true_iff in G as [G1 G2].
  split; [by apply Z.eqb_eq|]. split; [by apply Nat.eqb_eq|]. split; [done|]. apply Forall_forall. intros x Hx. rewrite forallb_forall in G4.
  specialize (G4 x (proj1 (elem_of_list_In _ _) Hx)). apply andb_true_iff in G4 as [A B]. apply N.leb_le in A, B. lia.
Qed.
Lemma tableOf_has n m eps : is_Some (tableOf n m eps) <-> hasTable n m eps = true.
Proof.
  unfold hasTable. rewrite <- tables_keys. unfold tableOf. generalize tables. intros ts.
  assert (forall o, is_Some (foldl (fun o (t : N * N * N * Z * list N) => let '(tn, tm, te, st, l) := t in if (te =? eps) && (tn =? n) && (tm =? m) then Some (st, l) else o) o ts) <->
    is_Some o \/ existsb (fun k : N * N * N => (k.2 =? eps) && (k.1.1 =? n) && (k.1.2 =? m)) (map (fun t : N * N * N * Z * list N => let '(n, m, e, _, _) := t in (n, m, e)) ts) = true) as H.
  { induction ts as [|[[[[tn tm] te] st'] l'] ts IH]; intros o; [cbn; intuition congruence|]. cbn [foldl map existsb]. rewrite IH. cbn [fst snd].
    destruct ((te =? eps) && (tn =? n) && (tm =? m)); cbn; [|done]. split; intros _; [by right|left; eauto]. }
  rewrite H. split; [intros [[]|]; done|by right].
Qed.

(** ** Entries below [k] *)
Fixpoint lowCount (k : N) (l : list N) : nat := match l with x :: l' => if x <? k then S (lowCount k l') else 0%nat | [] => 0%nat end.
Lemma lowCount_le k l : (lowCount k l <= length l)%nat.
Proof. induction l as [|x l IH]; cbn; [lia|]. destruct (x <? k); lia. Qed.
Lemma lowCount_lt k l i x : (i < lowCount k l)%nat -> l !! i = Some x -> x < k.
Proof.
  revert i. induction l as [|y l IH]; intros i Hi Hx; [done|]. cbn in Hi. destruct (N.ltb_spec y k); [|lia]. destruct i as [|i]; [cbn in Hx; by simplify_eq|].
  apply (IH i); [lia|done].
Qed.
Lemma lowCount_ge k l i x : sortedB l = true -> (lowCount k l <= i)%nat -> l !! i = Some x -> k <= x.
Proof.
  intros HS Hi Hx. assert (is_Some (l !! lowCount k l)) as [y Hy] by (apply lookup_lt_is_Some; apply lookup_lt_Some in Hx; lia).
  pose proof (sortedB_le l HS _ _ _ _ Hi Hy Hx). enough (k <= y) by lia. clear -Hy. revert Hy. induction l as [|z l IH]; [done|]. cbn. destruct (N.ltb_spec z k); [done|].
  cbn. intros ?. by simplify_eq.
Qed.
Lemma cut_prefix mx l : l <> [] -> exists j, (1 <= j <= length l)%nat /\ cutTable mx l = take j l.
Proof.
  destruct l as [|x l]; [done|]. intros _. assert (exists j, (j <= length l)%nat /\ cutTail mx l = take j l) as (j & Hj & E).
  { induction l as [|y l IH]; [by exists 0%nat|]. cbn. destruct (mx <? y); [exists 0%nat; split; [lia|done]|]. destruct IH as (j & Hj & ->). exists (S j). split; [lia|done]. }
  exists (S j). cbn. rewrite E. split; [lia|done].
Qed.
Lemma cut_all mx l : Forall (fun x => x <= mx) l -> cutTable mx l = l.
Proof.
  destruct l as [|x l]; [done|]. intros H. apply Forall_cons_1 in H as [_ H]. cbn. f_equal. induction H as [|y l Hy _ IH]; [done|]. cbn. destruct (N.ltb_spec mx y); [lia|]. by f_equal.
Qed.
(** The entry for a noisy value. *)
Lemma binLoad_table mx cap st l v : l <> [] -> (- 2 ^ 31 <= v < 2 ^ 31)%Z ->
  let tab := cutTable mx l in
  exists x, (tab !! Z.to_nat (Z.min (Z.of_nat (length tab) - 1) (Z.max 0 (v - st))) : option N) = Some x /\
    forall s, s <= 255 -> binLoad (mkLoadCfg false (-1) false mx cap st l) (v - Z.of_N s) s = Done (N.max (x mod 256) s).
Proof.
  intros Hl Hv tab. destruct (cut_prefix mx l Hl) as (j & Hj & E). assert (length tab = j) as HL by (unfold tab; rewrite E, take_length; lia).
  assert (is_Some (tab !! Z.to_nat (Z.min (Z.of_nat (length tab) - 1) (Z.max 0 (v - st))))) as [x Hx] by (apply lookup_lt_is_Some; lia).
  exists x. split; [done|]. intros s Hs. unfold binLoad. cbn [cLap cCw cOneSided cMax cTable cStart]. rewrite Z.eqb_refl. cbn [negb].
  replace (Z.of_N s + (v - Z.of_N s))%Z with v by lia. destruct (N.ltb_spec 255 s); [lia|]. destruct (Z.ltb_spec v (- 2 ^ 31)); [lia|]. destruct (Z.leb_spec (2 ^ 31) v); [lia|]. cbn [orb].
  fold tab. unfold lookupAt. replace (Z.to_nat (Z.min (Z.of_nat (length tab) - 1) (Z.max 0 (Z.max (Z.min (st + Z.of_nat (length tab)) v) st - st)))) with (Z.to_nat (Z.min (Z.of_nat (length tab) - 1) (Z.max 0 (v - st)))) by lia.
  by rewrite Hx.
Qed.
(** The load announced grows with the noisy value, is never below the size, never below the first entry. *)
Lemma table_load_mono n m eps mx cap s v v' : hasTable n m eps = true -> s <= 255 -> (- 2 ^ 31 <= v)%Z -> (v <= v')%Z -> (v' < 2 ^ 31)%Z ->
  exists a b, binLoad (tableCfg n m eps mx cap) (v - Z.of_N s) s = Done a /\ binLoad (tableCfg n m eps mx cap) (v' - Z.of_N s) s = Done b /\ N.max 8 s <= a /\ a <= b /\ b <= N.max 57 s.
Proof.
  intros HT Hs H1 H2 H3. apply tableOf_has in HT as [[st l] HT]. unfold tableCfg. rewrite HT. destruct (tableOf_good _ _ _ _ _ HT) as (-> & HL & HS & HF).
  assert (l <> []) as Hl by (intros ->; done).
  destruct (binLoad_table mx cap (-10) l v Hl ltac:(lia)) as (x & Hx & Bx). destruct (binLoad_table mx cap (-10) l v' Hl ltac:(lia)) as (y & Hy & By).
  destruct (cut_prefix mx l Hl) as (j & Hj & E). rewrite E in Hx, Hy. rewrite take_length in Hx, Hy. rewrite lookup_take in Hx, Hy by lia.
  exists (N.max (x mod 256) s), (N.max (y mod 256) s). split; [by apply Bx|]. split; [by apply By|].
  rewrite Forall_lookup in HF. pose proof (HF _ _ Hx). pose proof (HF _ _ Hy). rewrite (N.mod_small x), (N.mod_small y) by lia.
  assert (x <= y) by (eapply sortedB_le; [exact HS| |exact Hx|exact Hy]; lia). lia.
Qed.

(** ** The values for which the entry is below [k] *)
Definition isShort (c : loadCfg) (k : N) (v : Z) : bool := match binLoad c v 0 with Done l => l <? k | _ => false end.
Lemma short_low mx cap st l k v : l <> [] -> (- 2 ^ 31 <= v)%Z -> (v < st + Z.of_nat (lowCount k l))%Z -> (v < 2 ^ 31)%Z -> (1 <= lowCount k l)%nat ->
  isShort (mkLoadCfg false (-1) false mx cap st l) k v = true.
Proof.
  intros Hl H1 H2 H3 H4. destruct (binLoad_table mx cap st l v Hl ltac:(lia)) as (x & Hx & Bx). specialize (Bx 0 ltac:(lia)). replace (v - Z.of_N 0)%Z with v in Bx by lia.
  unfold isShort. rewrite Bx. destruct (cut_prefix mx l Hl) as (j & Hj & E). rewrite E, take_length in Hx. rewrite lookup_take in Hx by lia.
  assert (x < k) as Hk by (eapply lowCount_lt; [|exact Hx]; lia). pose proof (N.mod_le x 256 ltac:(lia)). apply N.ltb_lt. lia.
Qed.
Lemma short_high mx cap st l k v : l <> [] -> sortedB l = true -> Forall (fun x => x <= mx /\ x <= 255) l -> isShort (mkLoadCfg false (-1) false mx cap st l) k v = true ->
  (1 <= lowCount k l)%nat /\ ((v < st + Z.of_nat (lowCount k l))%Z \/ lowCount k l = length l).
Proof.
  intros Hl HS HF H. destruct (decide (- 2 ^ 31 <= v < 2 ^ 31)%Z) as [Hv|Hv].
  - destruct (binLoad_table mx cap st l v Hl Hv) as (x & Hx & Bx). specialize (Bx 0 ltac:(lia)). replace (v - Z.of_N 0)%Z with v in Bx by lia.
    unfold isShort in H. rewrite Bx in H. apply N.ltb_lt in H. rewrite cut_all in Hx by (eapply Forall_impl; [exact HF|]; cbn; lia).
    rewrite Forall_lookup in HF. pose proof (HF _ _ Hx). rewrite N.mod_small in H by lia.
    assert (Z.to_nat (Z.min (Z.of_nat (length l) - 1) (Z.max 0 (v - st))) < lowCount k l)%nat as Hi.
    { destruct (decide (Z.to_nat (Z.min (Z.of_nat (length l) - 1) (Z.max 0 (v - st))) < lowCount k l)%nat) as [|Hn]; [done|]. assert (k <= x) by (eapply lowCount_ge; [exact HS| |exact Hx]; lia). lia. }
    pose proof (lowCount_le k l). split; [lia|]. destruct (decide (lowCount k l = length l)); [by right|left; lia].
  - exfalso. unfold isShort, binLoad in H. cbn [cLap cCw cOneSided cMax cTable cStart] in H. rewrite Z.eqb_refl in H. cbn [negb] in H.
    replace (Z.of_N 0 + v)%Z with v in H by lia. destruct (N.ltb_spec 255 0); [lia|]. destruct (Z.ltb_spec v (- 2 ^ 31)), (Z.leb_spec (2 ^ 31) v); first [lia|cbn in H; discriminate].
Qed.
