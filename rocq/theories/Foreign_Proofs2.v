(** Proofs about receivers that face a sender who sends what it likes: ECDH, DKT, and the PIR-PSI server. *)
From Verif Require Import Base Partition_Model Foreign_Model Foreign_Spec Foreign_Proofs.
From Verif Require Ecdh_Model Ecdh_Proofs Dkt_Model Dkt_Spec Dkt_Proofs Drrn_Model.

(** ** ECDH *)

Section Ecdh.
Import Ecdh_Model Ecdh_Proofs.
Context {P : Type} (smul : P -> N -> P) (enc : P -> N) (dec : N -> P) (roPoint : N -> N).

Lemma omap_increasing (f : nat * N -> option N) l : (forall e v, f e = Some v -> v = N.of_nat e.1) -> forall a k, l.*1 = seq a k ->
  (forall i j x y, omap f l !! i = Some x -> omap f l !! j = Some y -> (i < j)%nat -> x < y) /\
  (forall v, v ∈ omap f l -> N.of_nat a <= v < N.of_nat (a + k)).
Proof.
  intros Hf. induction l as [|e l IH]; intros a k E.
  - split; [intros i j x y H; by cbn in H|]. intros v Hv. by apply elem_of_nil in Hv.
  - destruct k as [|k]; [done|]. cbn in E. injection E as E1 E2. destruct (IH (S a) k E2) as [A B]. cbn [omap list_omap]. destruct (f e) as [v|] eqn:Ev.
    + apply Hf in Ev. split.
      * intros [|i] [|j] x y; cbn; intros Hx Hy Hij; try lia.
        -- injection Hx as <-. apply elem_of_list_lookup_2 in Hy. apply B in Hy. lia.
        -- apply (A i j x y Hx Hy). lia.
      * intros w [->|Hw]%elem_of_cons; [lia|]. apply B in Hw. lia.
    + split; [done|]. intros w Hw. apply B in Hw. lia.
Qed.

Definition forItems (n T : nat) (masks : list (list N)) : list (nat * N) := concat (map (fun t => zip (idxRange n T t) (default [] (masks !! t))) (seq 0 T)).

Lemma forItems_fst n T masks : (0 < T)%nat -> N.of_nat n * N.of_nat T < 2 ^ 64 -> checked n T masks = true -> (forItems n T masks).*1 = seq 0 n.
Proof.
  intros HT Hw HC. rewrite <- (idxRange_concat n T HT Hw). unfold forItems.
  assert (forall ts, (forall t, t ∈ ts -> t ∈ seq 0 T) -> (concat (map (fun t => zip (idxRange n T t) (default [] (masks !! t))) ts)).*1 = concat (map (idxRange n T) ts)) as G; [|by apply G].
  induction ts as [|t ts IH]; intros H; [done|]. cbn [map concat]. rewrite fmap_app, IH by (intros u Hu; apply H; by right). f_equal. apply fst_zip.
  unfold checked in HC. rewrite forallb_forall in HC. specialize (HC t (proj1 (elem_of_list_In _ _) (H t ltac:(left)))). destruct (masks !! t) as [m|]; [|done].
  apply Nat.eqb_eq in HC. change (default [] (Some m)) with m. lia.
Qed.

Lemma matchThread_concat ms m n T masks :
  concat (map (fun t => matchThread ms m (idxRange n T t) (default [] (masks !! t))) (seq 0 T)) =
  omap (fun im : nat * N => match list_find (fun e => e.1 = im.2 mod 2 ^ 32) m with
          | Some (_, (_, blk)) => if im.2 =? blk mod 2 ^ (8 * ms) then Some (N.of_nat im.1) else None
          | None => None
          end) (forItems n T masks).
Proof. unfold forItems, matchThread. apply concat_map_omap. Qed.

Lemma ecdh_earned T b n xa masks sched old out : (0 < T)%nat -> N.of_nat n * N.of_nat T < 2 ^ 64 ->
  ecdhReceive smul enc dec roPoint T b n xa masks sched old = Done out ->
  exists new, out = old ++ new /\ (forall i j x y, new !! i = Some x -> new !! j = Some y -> (i < j)%nat -> x < y) /\
    forall p, p ∈ new -> p < N.of_nat n /\ ecdhOwn (fun y => roPoint (enc (smul (dec y) b))) (maskBytes n) (concat xa) (forItems n T masks) (N.to_nat p).
Proof.
  intros HT Hw. unfold ecdhReceive. destruct (checked n T xa) eqn:C1; [|done]. destruct (checked n T masks) eqn:C2; [|done]. cbn [negb orb].
  destruct (interleave _ _) as [blks|] eqn:EI; [|done]. intros [= <-]. eexists. split; [reflexivity|]. rewrite matchThread_concat.
  match goal with |- context [omap ?f _] => set (g := f) end.
  assert (forall e v, g e = Some v -> v = N.of_nat e.1) as Hg.
  { intros e v. unfold g. destruct (list_find _ _) as [[j [k blk]]|]; [|done]. destruct (_ =? _); [|done]. by intros [= <-]. }
  destruct (omap_increasing g (forItems n T masks) Hg 0 n (forItems_fst n T masks HT Hw C2)) as [A B]. split; [exact A|].
  intros p Hp. split; [apply B in Hp as [_ Hp]; exact Hp|]. apply elem_of_list_omap in Hp as ([i m] & Hi & E). unfold g in E. cbn [fst snd] in E.
  pose proof (map_find blks (m mod 2 ^ 32)) as MF. destruct (list_find _ _) as [[j [k blk]]|]; [|done]. destruct (m =? _) eqn:Em; [|done]. injection E as <-.
  apply N.eqb_eq in Em. destruct MF as [Hb _]. rewrite (interleave_perm _ _ _ EI) in Hb.
  apply elem_of_concat in Hb as (l & Hl & Hb). apply elem_of_list_fmap in Hb as (row & -> & Hrow). apply elem_of_list_fmap in Hl as (y & -> & Hy).
  rewrite Nat2N.id. exists m, y. split; [done|]. split; [|done]. apply elem_of_concat. by exists row.
Qed.

Lemma map_repl {A B} (f : A -> B) n x : map f (replicate n x) = replicate n (f x).
Proof. induction n as [|n IH]; cbn; [done|by rewrite IH]. Qed.

(** A sender without any item. [e] encodes a point that no scalar changes. *)
Lemma ecdh_forged e b n : (forall k, smul (dec e) k = dec e) -> (0 < n)%nat -> N.of_nat n < 2 ^ 64 -> 4 <= maskBytes n ->
  ecdhReceive smul enc dec roPoint 1 b n [replicate n e] [replicate n (roPoint (enc (dec e)) mod 2 ^ (8 * maskBytes n))] (replicate n 0%nat) [] =
  Done (map N.of_nat (seq 0 n)).
Proof.
  intros He Hn Hw Hm. assert (forall t, t = 0%nat -> idxRange n 1 t = seq 0 n) as IR.
  { intros t ->. pose proof (idxRange_concat n 1 ltac:(lia) ltac:(lia)) as H. cbn in H. by rewrite app_nil_r in H. }
  unfold ecdhReceive. assert (forall v : N, checked n 1 [replicate n v] = true) as HC.
  { intros v. unfold checked. cbn [seq forallb lookup list_lookup]. rewrite (IR 0%nat eq_refl), replicate_length, seq_length, Nat.eqb_refl. done. }
  rewrite !HC. cbn [negb orb map]. set (h := roPoint (enc (dec e))). rewrite map_repl. unfold recvBlock. rewrite He. fold h.
  assert (forall k, interleave (replicate k 0%nat) [replicate k h] = Some (replicate k h)) as ->.
  { induction k as [|k IH]; [done|]. cbn [replicate interleave lookup list_lookup insert list_insert]. rewrite IH. done. }
  f_equal. cbn [seq map concat lookup list_lookup]. rewrite (IR 0%nat eq_refl), app_nil_r. cbn [default app]. unfold id.
  assert (foldl mapInsert [] (replicate n h) = [(h mod 2 ^ 32, h)]) as ->.
  { destruct n as [|n']; [lia|]. cbn [replicate foldl]. change (mapInsert [] h) with [(h mod 2 ^ 32, h)]. clear. induction n' as [|n' IH]; [done|]. cbn [replicate foldl].
    unfold mapInsert at 2. rewrite bool_decide_eq_true_2 by (cbn; left). exact IH. }
  unfold matchThread. set (ms := maskBytes n) in *. clearbody ms. generalize 0%nat at 1 2 as a. clear -Hm. induction n as [|n IH]; intros a; [done|].
  cbn [seq replicate zip_with omap list_omap fst snd list_find map]. rewrite decide_True.
  2:{ cbn [fst]. replace (2 ^ (8 * ms)) with (2 ^ 32 * 2 ^ (8 * ms - 32)) by (rewrite <- N.pow_add_r; f_equal; lia).
      rewrite N.mod_mul_r by (apply N.pow_nonzero; lia). rewrite N.add_mod, (N.mul_comm (2 ^ 32)), N.mod_mul, N.add_0_r, !N.mod_mod by (apply N.pow_nonzero; lia). done. }
  rewrite N.eqb_refl. f_equal. apply IH.
Qed.
End Ecdh.

(** ** DKT *)

Section Dkt.
Import Ecdh_Model Ecdh_Proofs Dkt_Model Dkt_Proofs.

Lemma concat_imap_lookup {A B} (h : nat -> nat -> A -> B) (L : list (list A)) : forall s p m,
  concat (imap (fun t l => imap (h (s + t)%nat) l) L) !! p = Some m ->
  exists t k e row, L !! t = Some row /\ row !! k = Some e /\ concat L !! p = Some e /\ m = h (s + t)%nat k e.
Proof.
  induction L as [|row L IH]; intros s p m H; cbn [imap concat] in H; [done|]. rewrite Nat.add_0_r in H.
  destruct (decide (p < length row)%nat) as [Hp|Hp].
  - rewrite lookup_app_l in H by (by rewrite imap_length). rewrite list_lookup_imap in H. destruct (row !! p) as [e|] eqn:E; [|done]. injection H as <-.
    exists 0%nat, p, e, row. rewrite Nat.add_0_r. split; [done|]. split; [done|]. split; [|done]. cbn. by rewrite lookup_app_l.
  - rewrite lookup_app_r in H by (rewrite imap_length; lia). rewrite imap_length in H.
    rewrite (imap_ext _ (fun t l => imap (h (S s + t)%nat) l)) in H by (intros t l _; cbn; by rewrite Nat.add_succ_r).
    apply IH in H as (t & k & e & row' & A1 & A2 & A3 & ->). exists (S t), k, e, row'. split; [done|]. split; [done|]. split.
    + cbn [concat]. rewrite lookup_app_r by lia. done.
    + by rewrite Nat.add_succ_r.
Qed.

Lemma concat_zip_snd {A B} (l1 : list (list A)) (l2 : list (list B)) : map length l1 = map length l2 -> (concat (zip_with zip l1 l2)).*2 = concat l2.
Proof.
  revert l2. induction l1 as [|a l1 IH]; intros [|b l2] H; try done. cbn in H. injection H as H1 H2. cbn [zip_with concat]. rewrite fmap_app, IH by done. f_equal. apply snd_zip. lia.
Qed.

Lemma dkt_earned D r T R items m1 m old out : (0 < T)%nat -> N.of_nat (length R) * N.of_nat T < 2 ^ 64 -> threadItems T R = Some items ->
  recvFinish D r T R items m1 m old = Done out ->
  earned (length R) (dktOwn (sMps m) (recvMask D r (sZ m)) R) (concat (sTs m)) old out.
Proof.
  intros HT Hw EI H. unfold recvFinish in H. destruct (sized T (length R) (sAs m)); [|done]. cbn [negb] in H. destruct (zProof _ _ _); [|done]. cbn [negb] in H.
  destruct (sized T (length R) (sMps m)) eqn:SM; [|done]. cbn [negb] in H. destruct (forallb _ _); [|done]. cbn [negb] in H. destruct (sized T (length R) (sTs m)); [|done]. cbn [negb] in H.
  injection H as <-. eexists. split; [reflexivity|]. split.
  { pose proof (concat_omap_length (fun _ : list N => lookupTs (foldl hashsInsert [] (zip (concat (imap (fun t l => imap (fun k e => recvMask D r (sZ m) t k e.1 e.2) l) (zip_with zip (sMps m) items))) (seq 0 (length R))))) id (sTs m)) as L.
    rewrite map_id in L. exact L. }
  intros p Hp. apply (elem_concat_omap (fun _ : list N => lookupTs _) id) in Hp as (row & Ts & _ & _ & Hm & Ef). rewrite map_id in Hm.
  apply lookupTs_sound in Ef as (k & -> & Hk). apply elem_of_list_lookup in Hk as [j Hj]. apply lookup_zip_with_Some in Hj as (a & q & [= <- <-] & Ha & Hq). apply lookup_seq in Hq as [-> Hq].
  split; [lia|]. exists Ts. split; [done|]. rewrite Nat2N.id. cbn [Nat.add].
  apply (concat_imap_lookup (fun t k (e : pt D * N) => recvMask D r (sZ m) t k e.1 e.2) _ 0) in Ha as (t & k & [u x] & row' & A1 & A2 & A3 & ->). cbn [fst snd Nat.add] in *.
  assert (map length (sMps m) = map length items) as LL.
  { unfold sized in SM. apply bool_decide_eq_true_1 in SM. rewrite SM. rewrite (threadItems_eq T (length R) HT Hw R eq_refl) in EI. injection EI as <-. rewrite map_map. apply map_ext. intros t'. unfold itemsAt. by rewrite map_length. }
  pose proof (concat_zip_snd (sMps m) items LL) as CZ. assert (concat items = R) as CR.
  { rewrite (threadItems_eq T (length R) HT Hw R eq_refl) in EI. injection EI as <-. unfold itemsAt. rewrite <- (map_map (idxRange (length R) T) (map (fun i => default 0 (R !! i)))).
    rewrite concat_map_map, idxRange_concat by done. by rewrite map_lookup_seq. }
  apply lookup_zip_with_Some in A1 as (us & xs & -> & B1 & B2). apply lookup_zip_with_Some in A2 as (u' & x' & [= <- <-] & C1 & C2).
  exists x, t, k, u, us. split; [|done]. rewrite <- CR, <- CZ. rewrite list_lookup_fmap, A3. done.
Qed.
End Dkt.

(** ** PIR-PSI *)

Section Drrn.
Import Drrn_Model.

Lemma server0_reads shares msg1 rs pi0 piS0 : length msg1 = length shares -> length pi0 = length shares -> length piS0 = length shares ->
  (is_Some (server0Input shares msg1 rs pi0 piS0) <-> insideTable (length rs) pi0).
Proof.
  intros L1 L2 L3. unfold server0Input, insideTable. rewrite mapM_is_Some. rewrite Forall_forall. split.
  - intros H i Hi. apply elem_of_list_lookup in Hi as [j Hj]. pose proof (lookup_lt_Some _ _ _ Hj) as Lj.
    destruct (lookup_lt_is_Some_2 shares j ltac:(lia)) as [a Ha]. destruct (lookup_lt_is_Some_2 msg1 j ltac:(lia)) as [b Hb]. destruct (lookup_lt_is_Some_2 piS0 j ltac:(lia)) as [c Hc].
    destruct (H ((a, b), (i, c))) as [v Hv].
    { apply elem_of_list_lookup_2 with j. rewrite lookup_zip_with. rewrite (lookup_zip_with _ shares), Ha, Hb. cbn. rewrite lookup_zip_with, Hj, Hc. done. }
    cbn in Hv. destruct (rs !! i) eqn:E; [|done]. by eapply lookup_lt_Some.
  - intros H [[a b] [i c]] He. cbn. assert (i ∈ pi0) as Hi.
    { apply elem_of_list_lookup in He as [j Hj]. apply lookup_zip_with_Some in Hj as (u & w & [= <- <-] & _ & Hw). apply lookup_zip_with_Some in Hw as (u' & w' & [= <- <-] & Hu & _). by eapply elem_of_list_lookup_2. }
    destruct (lookup_lt_is_Some_2 rs i (H i Hi)) as [v ->]. by eexists.
Qed.
End Drrn.
