From Verif Require Import Base MsgLen_Model MsgLen_Spec.
Local Open Scope nat_scope.

Lemma readAt_ok buf off len : off + len <= length buf -> readAt buf off len = Done (take len (drop off buf)).
Proof. intros H. unfold readAt. by rewrite (proj2 (Nat.leb_le _ _) H). Qed.
Lemma readAt_ub buf off len : length buf < off + len -> readAt buf off len = UB.
Proof. intros H. unfold readAt. by rewrite (proj2 (Nat.leb_gt _ _) H). Qed.
Lemma take_front (buf : list N) off len : off + len <= length buf -> length (take len (drop off buf)) = len.
Proof. intros H. rewrite take_length, drop_length. lia. Qed.
Lemma drop_front (buf : list N) off len : drop off buf = take len (drop off buf) ++ drop (off + len) buf.
Proof. rewrite <- drop_drop. by rewrite take_drop. Qed.

Lemma readMany_ok buf sz cnt : forall off, off + cnt * sz <= length buf ->
  exists l, readMany buf off sz cnt = Done l /\ drop off buf = concat l ++ drop (off + cnt * sz) buf /\ length l = cnt /\ Forall (fun r => length r = sz) l.
Proof.
  induction cnt as [|cnt IH]; intros off H; cbn [readMany Nat.mul] in *.
  { exists []. rewrite Nat.add_0_r. split; [done|]. split; [done|]. split; [done|]. apply Forall_nil_2. }
  rewrite readAt_ok by lia. destruct (IH (off + sz)) as (l & El & Ec & Ll & Fl); [lia|]. rewrite El. eexists. split; [reflexivity|].
  split; [cbn [concat]; rewrite (drop_front buf off sz) at 1; rewrite Ec, app_assoc; do 2 f_equal; lia|]. split; [cbn; lia|]. apply Forall_cons_2; [|done]. apply take_front. lia.
Qed.
Lemma readMany_ub buf sz cnt : forall off, length buf < off + cnt * sz -> 0 < cnt -> readMany buf off sz cnt = UB.
Proof.
  induction cnt as [|cnt IH]; intros off H H0; [lia|]. cbn [readMany Nat.mul] in *. destruct (decide (off + sz <= length buf)) as [Hl|Hl].
  - rewrite readAt_ok by done. destruct cnt as [|cnt]; [cbn [Nat.mul] in H; lia|]. rewrite IH; [done|lia|lia].
  - rewrite readAt_ub by lia. done.
Qed.
Lemma concat_single {A} (l : list A) : concat (map (fun r => [r]) l) = l.
Proof. induction l as [|x l IH]; [done|]. cbn. by rewrite IH. Qed.

Lemma readMany_trusts sz cnt : trusts sz cnt (fun buf => readMany buf 0 sz cnt) (fun r => [r]).
Proof.
  intros buf. split.
  - intros H. destruct (readMany_ok buf sz cnt 0) as (l & El & Ec & Ll & Fl); [lia|]. exists l. split; [done|]. rewrite concat_single. exists (drop (cnt * sz) buf).
    rewrite drop_0 in Ec. done.
  - intros H. apply readMany_ub; [lia|]. destruct cnt; lia.
Qed.
Lemma checkedMany_checks sz cnt : checks sz cnt (fun buf => checkedMany buf sz cnt) (fun r => [r]).
Proof.
  intros buf. unfold checkedMany. split.
  - intros H. rewrite H, Nat.eqb_refl. cbn [negb]. destruct (readMany_ok buf sz cnt 0) as (l & El & Ec & Ll & Fl); [lia|]. exists l. split; [done|]. rewrite concat_single.
    rewrite drop_0 in Ec. cbn [Nat.add] in Ec. rewrite drop_ge, app_nil_r in Ec by lia. done.
  - intros H. by rewrite (proj2 (Nat.eqb_neq _ _) H).
Qed.

Lemma maskReads_ok buf sz key cnt : key <= sz -> forall off, off + cnt * sz <= length buf ->
  exists l, maskReads buf off sz key cnt = Done l /\ drop off buf = concat (map snd l) ++ drop (off + cnt * sz) buf /\ length l = cnt /\
    Forall (fun r => length r = sz) (map snd l) /\ Forall (fun e => e.1 = take key e.2) l.
Proof.
  intros Hk. induction cnt as [|cnt IH]; intros off H; cbn [maskReads Nat.mul] in *.
  { exists []. rewrite Nat.add_0_r. split; [done|]. split; [done|]. split; [done|]. split; apply Forall_nil_2. }
  rewrite !readAt_ok by lia. destruct (IH (off + sz)) as (l & El & Ec & Ll & Fl & Kl); [lia|]. rewrite El. eexists. split; [reflexivity|].
  split; [cbn [concat map]; cbn [snd]; rewrite (drop_front buf off sz) at 1; rewrite Ec, app_assoc; do 2 f_equal; lia|]. split; [cbn; lia|]. split.
  - cbn [map]. apply Forall_cons_2; [|done]. apply take_front. lia.
  - apply Forall_cons_2; [|done]. cbn [fst snd]. rewrite take_take. f_equal. lia.
Qed.
Lemma maskReads_ub buf sz key cnt : forall off, length buf < off + cnt * sz -> 0 < cnt -> maskReads buf off sz key cnt = UB.
Proof.
  induction cnt as [|cnt IH]; intros off H H0; [lia|]. cbn [maskReads Nat.mul] in *. destruct (decide (off + sz <= length buf)) as [Hl|Hl].
  - unfold readAt at 1. destruct (off + key <=? length buf); [|done]. rewrite readAt_ok by done. destruct cnt as [|cnt]; [cbn [Nat.mul] in H; lia|]. rewrite IH; [done|lia|lia].
  - rewrite (readAt_ub buf off sz) by lia. by destruct (readAt buf off key).
Qed.
Lemma concat_snd {A B} (l : list (A * B)) : concat (map (fun e => [e.2]) l) = map snd l.
Proof. induction l as [|x l IH]; [done|]. cbn. by rewrite IH. Qed.
Lemma maskReads_trusts sz key cnt : key <= sz -> trusts sz cnt (fun buf => maskReads buf 0 sz key cnt) (fun e => [e.2]).
Proof.
  intros Hk buf. split.
  - intros H. destruct (maskReads_ok buf sz key cnt Hk 0) as (l & El & Ec & Ll & Fl & _); [lia|]. exists l. split; [done|]. rewrite concat_snd.
    exists (drop (cnt * sz) buf). rewrite drop_0 in Ec. split; [done|]. by rewrite map_length.
  - intros H. apply maskReads_ub; [lia|]. destruct cnt; lia.
Qed.
Lemma ecdhMasks_checks sz cnt : 4 <= sz -> checks sz cnt (ecdhMasks cnt sz) (fun e => [e.2]).
Proof.
  intros Hk buf. unfold ecdhMasks. split.
  - intros H. rewrite H, Nat.eqb_refl. cbn [negb]. destruct (maskReads_ok buf sz 4 cnt Hk 0) as (l & El & Ec & Ll & Fl & _); [lia|]. exists l. split; [done|]. rewrite concat_snd.
    rewrite drop_0 in Ec. cbn [Nat.add] in Ec. rewrite drop_ge, app_nil_r in Ec by lia. split; [done|]. by rewrite map_length.
  - intros H. by rewrite (proj2 (Nat.eqb_neq _ _) H).
Qed.

Definition flat3 (e : list N * list N * list N) : list (list N) := [e.1.1; e.1.2; e.2].
Lemma readTriples_ok buf sz cnt : forall off, off + cnt * sz * 3 <= length buf ->
  exists l, readTriples buf off sz cnt = Done l /\ drop off buf = concat (concat (map flat3 l)) ++ drop (off + cnt * sz * 3) buf /\ length (concat (map flat3 l)) = cnt * 3 /\
    Forall (fun r => length r = sz) (concat (map flat3 l)).
Proof.
  induction cnt as [|cnt IH]; intros off H; cbn [readTriples Nat.mul] in *.
  { exists []. rewrite Nat.add_0_r. split; [done|]. split; [done|]. split; [done|]. apply Forall_nil_2. }
  rewrite !readAt_ok by lia. destruct (IH (off + sz + sz + sz)) as (l & El & Ec & Ll & Fl); [lia|]. rewrite El. eexists. split; [reflexivity|].
  cbn [map concat]. unfold flat3 at 1 3 5. cbn [fst snd app concat]. split.
  { rewrite (drop_front buf off sz) at 1. rewrite (drop_front buf (off + sz) sz) at 1. rewrite (drop_front buf (off + sz + sz) sz) at 1. rewrite Ec, <- !app_assoc.
    do 5 f_equal. lia. }
  split; [cbn [length]; lia|]. apply Forall_cons_2; [apply take_front; lia|]. apply Forall_cons_2; [apply take_front; lia|]. apply Forall_cons_2; [apply take_front; lia|done].
Qed.
Lemma dktTriples_checks sz cur : checks sz (3 * cur) (dktTriples cur sz) flat3.
Proof.
  intros buf. unfold dktTriples. replace (3 * cur * sz) with (cur * sz * 3) by lia. split.
  - intros H. rewrite H, Nat.eqb_refl. cbn [negb]. destruct (readTriples_ok buf sz cur 0) as (l & El & Ec & Ll & Fl); [lia|]. exists l. split; [done|].
    rewrite drop_0 in Ec. cbn [Nat.add] in Ec. rewrite drop_ge, app_nil_r in Ec by lia. split; [done|]. split; [lia|done].
  - intros H. by rewrite (proj2 (Nat.eqb_neq _ _) H).
Qed.

Lemma checks_inside {A} sz cnt (parse : list N -> outcome (list A)) flat : checks sz cnt parse flat -> staysInside parse.
Proof. intros H buf. destruct (H buf) as [H1 H2]. destruct (decide (length buf = cnt * sz)) as [E|E]; [destruct (H1 E) as (l & -> & _)|rewrite (H2 E)]; done. Qed.
Lemma trusts_outside {A} sz cnt (parse : list N -> outcome (list A)) flat : trusts sz cnt parse flat -> 0 < cnt * sz -> ~ staysInside parse.
Proof. intros H H0 H1. apply (H1 []). apply (H []). cbn. lia. Qed.
Lemma dktPhi_spec sz buf : (sz <= length buf -> dktPhi sz buf = Done (take sz buf)) /\ (length buf < sz -> dktPhi sz buf = UB).
Proof. unfold dktPhi. split; intros H; [by rewrite readAt_ok|by apply readAt_ub]. Qed.

Lemma maskReads_keys sz key cnt buf l : key <= sz -> maskReads buf 0 sz key cnt = Done l -> Forall (fun e => e.1 = take key e.2) l.
Proof.
  intros Hk E. destruct (decide (cnt * sz <= length buf)) as [H|H].
  - destruct (maskReads_ok buf sz key cnt Hk 0) as (l' & El & _ & _ & _ & Kl); [lia|]. rewrite E in El. injection El as <-. done.
  - rewrite maskReads_ub in E; [done|lia|]. destruct cnt; lia.
Qed.
Lemma ecdhMasks_keys n sz buf l : 4 <= sz -> ecdhMasks n sz buf = Done l -> Forall (fun e => e.1 = take 4 e.2) l.
Proof. intros Hk. unfold ecdhMasks. destruct (negb _); [done|]. by apply maskReads_keys. Qed.
