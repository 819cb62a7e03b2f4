(** A criterion for completion: events can be ranked such that each script is sorted, each send has a lower rank than its receive and enough arrivals have a lower rank than a wait. *)
From stdpp Require Import sorting sets.
From Verif Require Import Base Sched_Model Sched_Spec.

Definition rank := (nat * nat)%type.
Definition rlt (a b : rank) : Prop := (a.1 < b.1)%nat \/ a.1 = b.1 /\ (a.2 < b.2)%nat.
Definition rle (a b : rank) : Prop := rlt a b \/ a = b.
Global Instance rlt_dec a b : Decision (rlt a b).
Proof. unfold rlt. apply _. Defined.

Lemma rlt_wf : well_founded rlt.
Proof.
  intros [a b]. revert b. induction a as [a IHa] using lt_wf_ind. intros b. induction b as [b IHb] using lt_wf_ind.
  constructor. intros [a' b'] [H|[H H']]; cbn in *; [by apply IHa|]. subst a'. by apply IHb.
Qed.
Lemma rle_rlt a b c : rle a b -> rlt b c -> rlt a c.
Proof. intros [H| ->]; [|done]. unfold rlt in *. destruct a, b, c; cbn in *. lia. Qed.
Lemma rnlt a b : ~ rlt a b -> rle b a.
Proof.
  unfold rle, rlt. destruct a as [a1 a2], b as [b1 b2]. cbn. intros H.
  destruct (decide (a1 = b1)) as [->|]; [|lia]. destruct (decide (a2 = b2)) as [->|]; [by right|lia].
Qed.

Definition sendsOf (q : queue) (l : list ev) : list N := omap (fun e => match e with Snd q' k => if decide (q' = q) then Some k else None | _ => None end) l.
Definition rsends (q : queue) (l : list (rank * ev)) : list (rank * N) :=
  omap (fun e : rank * ev => match e.2 with Snd q' k => if decide (q' = q) then Some (e.1, k) else None | _ => None end) l.
Definition evs (l : list (rank * ev)) : list ev := map snd l.
Definition before (r : rank) (l : list (rank * N)) : list (rank * N) := filter (fun e => rlt e.1 r) l.

Record ranked (a : list (list (rank * ev))) : Prop := {
  rk_sorted : forall i l, a !! i = Some l -> StronglySorted rle (map fst l);
  rk_get : forall i l r q j k, a !! i = Some l -> (r, Get q j k) ∈ l ->
    exists u lu r', a !! u = Some lu /\ (forall v lv, a !! v = Some lv -> v <> u -> rsends q lv = []) /\ rsends q lu !! j = Some (r', k) /\ rlt r' r;
  rk_wait : forall i l r q n, a !! i = Some l -> (r, Wai q n) ∈ l -> (n <= length (before r (concat (map (rsends q) a))))%nat
}.

(** Permutation of concatenated prefixes *)
Definition prefixes (a : list (list (rank * ev))) (c : nat -> nat) : list (list (rank * ev)) := imap (fun i l => take (c i) l) a.
Definition inv (a : list (list (rank * ev))) (c : nat -> nat) (s : state) : Prop :=
  length (todo s) = length a /\
  (forall i l, a !! i = Some l -> todo s !! i = Some (evs (drop (c i) l))) /\
  (forall q, length (sentOn q (sentLog s)) = length (concat (map (rsends q) (prefixes a c)))) /\
  (forall q u lu, a !! u = Some lu -> (forall v lv, a !! v = Some lv -> v <> u -> rsends q lv = []) ->
     sentOn q (sentLog s) = map snd (rsends q (take (c u) lu))).

Lemma rsends_app q l1 l2 : rsends q (l1 ++ l2) = rsends q l1 ++ rsends q l2.
Proof. apply omap_app. Qed.
Lemma sentOn_app q l1 l2 : sentOn q (l1 ++ l2) = sentOn q l1 ++ sentOn q l2.
Proof. apply omap_app. Qed.

Lemma inv_start a : inv a (fun _ => 0%nat) (start (map evs a)).
Proof.
  split_and!; cbn.
  - by rewrite map_length.
  - intros i l Hl. by rewrite list_lookup_fmap, Hl.
  - intros q. unfold prefixes. induction a as [|l a IH]; [done|]. exact IH.
  - intros q u lu _ _. done.
Qed.

(** The next event of a thread. *)
Lemma next_ev (a : list (list (rank * ev))) c s i e rest : inv a c s -> todo s !! i = Some (e :: rest) ->
  exists l r, a !! i = Some l /\ l !! c i = Some (r, e) /\ rest = evs (drop (S (c i)) l).
Proof.
  intros (Hlen & Htodo & _) H. assert (i < length a)%nat as Hi by (rewrite <- Hlen; by apply lookup_lt_Some in H).
  apply lookup_lt_is_Some in Hi as [l Hl]. specialize (Htodo i l Hl). rewrite Htodo in H. injection H as H.
  exists l. destruct (l !! c i) as [[r e']|] eqn:Hc.
  - rewrite (drop_S _ _ _ Hc) in H. cbn in H. injection H as -> <-. by exists r.
  - apply lookup_ge_None in Hc. rewrite drop_ge in H by done. done.
Qed.

Lemma prefixes_step q a c i l r e : a !! i = Some l -> l !! c i = Some (r, e) ->
  length (concat (map (rsends q) (prefixes a (fun x => if (x =? i)%nat then S (c i) else c x)))) =
  (length (concat (map (rsends q) (prefixes a c))) + length (rsends q [(r, e)]))%nat.
Proof.
  unfold prefixes. intros Hl Hc. revert c i Hl Hc. induction a as [|l0 a IH]; [done|]. intros c i Hl Hc. rewrite !imap_cons. cbn [map concat]. rewrite !app_length.
  destruct i as [|i]; cbn in Hl.
  - injection Hl as ->. change (0 =? 0)%nat with true. cbn iota. rewrite (take_S_r _ _ _ Hc), rsends_app, app_length.
    assert (imap ((fun (x : nat) (l1 : list (rank * ev)) => take (if (x =? 0)%nat then S (c 0%nat) else c x) l1) ∘ S) a = imap ((fun x l1 => take (c x) l1) ∘ S) a) as ->.
    { apply imap_ext. intros; done. }
    lia.
  - specialize (IH (fun x => c (S x)) i Hl Hc). change (0 =? S i)%nat with false. cbn iota.
    assert (imap ((fun (x : nat) (l1 : list (rank * ev)) => take (if (x =? S i)%nat then S (c (S i)) else c x) l1) ∘ S) a =
            imap (fun x l1 => take (if (x =? i)%nat then S (c (S i)) else c (S x)) l1) a) as -> by (apply imap_ext; intros; done).
    assert (imap ((fun x l1 => take (c x) l1) ∘ S) a = imap (fun (x : nat) (l1 : list (rank * ev)) => take (c (S x)) l1) a) as -> by (apply imap_ext; intros; done).
    lia.
Qed.

Lemma inv_step a c s lbl s' : inv a c s -> step s lbl s' -> exists c', inv a c' s'.
Proof.
  intros HI Hs. destruct Hs as [s i e rest Ht Hen]. destruct (next_ev _ _ _ _ _ _ HI Ht) as (l & r & Hl & Hc & ->).
  destruct HI as (Hlen & Htodo & Hcount & Hord).
  exists (fun x => if (x =? i)%nat then S (c i) else c x). split_and!; cbn [todo sentLog].
  - by rewrite insert_length.
  - intros x lx Hx. destruct (Nat.eqb_spec x i) as [->|Hne].
    + rewrite Hl in Hx. injection Hx as <-. apply list_lookup_insert. by apply lookup_lt_Some in Ht.
    + rewrite list_lookup_insert_ne by done. by apply Htodo.
  - intros q. rewrite (prefixes_step q a c i l r e Hl Hc), <- Hcount. destruct e; cbn [effect]; try (unfold rsends at 1; cbn [omap list_omap snd]; cbn; lia).
    rewrite sentOn_app, app_length. f_equal. unfold rsends, sentOn. cbn. destruct (decide (q0 = q)); done.
  - intros q u lu Hu Hsing. destruct (Nat.eqb_spec u i) as [->|Hne].
    + rewrite Hl in Hu. injection Hu as <-. rewrite (take_S_r _ _ _ Hc), rsends_app, map_app, <- (Hord q i l Hl Hsing).
      destruct e; cbn [effect]; try (unfold rsends; cbn; by rewrite app_nil_r). rewrite sentOn_app. f_equal. unfold rsends, sentOn. cbn. destruct (decide (q0 = q)); done.
    + rewrite <- (Hord q u lu Hu Hsing). destruct e; cbn [effect]; try done. rewrite sentOn_app. unfold sentOn at 2. cbn. destruct (decide (q0 = q)) as [->|]; cbn; [|by rewrite app_nil_r].
      exfalso. specialize (Hsing i l Hl ltac:(done)). assert ((r, k) ∈ rsends q l) as Hin.
      { apply elem_of_list_omap. exists (r, Snd q k). split; [by eapply elem_of_list_lookup_2|]. cbn. by rewrite decide_True. }
      rewrite Hsing in Hin. by apply elem_of_nil in Hin.
Qed.
Lemma inv_exec a tr s : exec (start (map evs a)) tr s -> exists c, inv a c s.
Proof.
  intros H. remember (start (map evs a)) as s0 eqn:E. induction H as [|s0 tr s' l s'' H IH Hs]; subst.
  - exists (fun _ => 0%nat). apply inv_start.
  - destruct (IH eq_refl) as [c HI]. by eapply inv_step.
Qed.

Lemma sorted_drop (l : list (rank * ev)) (c : nat) r e r' e' : StronglySorted rle (map fst l) -> l !! c = Some (r, e) -> (r', e') ∈ drop c l -> rle r r'.
Proof.
  intros Hs Hc Hin. rewrite (drop_S _ _ _ Hc) in Hin. apply elem_of_cons in Hin as [[= -> ->]|Hin]; [by right|].
  rewrite <- (take_drop c l), map_app, (drop_S _ _ _ Hc) in Hs. cbn in Hs. apply StronglySorted_app_inv_r in Hs.
  inversion Hs as [|? ? _ Hall]; subst. rewrite List.Forall_forall in Hall. apply Hall.
  apply in_map_iff. exists (r', e'). split; [done|]. by apply elem_of_list_In.
Qed.
Lemma rsends_elem q l r k : (r, k) ∈ rsends q l -> (r, Snd q k) ∈ l.
Proof.
  intros H. apply elem_of_list_omap in H as [[r' e] [Hin He]]. cbn in He. destruct e as [q' k'| | |]; try done.
  destruct (decide (q' = q)) as [->|]; [|done]. by injection He as -> ->.
Qed.

Definition lower (c : nat -> nat) (r : rank) (ul : nat * list (rank * ev)) : Prop :=
  match ul.2 !! c ul.1 with Some re => rlt re.1 r | None => False end.
Global Instance lower_dec c r ul : Decision (lower c r ul).
Proof. unfold lower. destruct (ul.2 !! c ul.1); apply _. Defined.
(** A thread whose next event has rank [r]: some thread can go on. *)
Lemma progress a c s : ranked a -> inv a c s -> forall r i l e, a !! i = Some l -> l !! c i = Some (r, e) -> exists lbl s', step s lbl s'.
Proof.
  intros HR HI r. induction (rlt_wf r) as [r _ IH]. intros i l e Hl Hc. pose proof HI as (Hlen & Htodo & Hcount & Hord).
  assert (todo s !! i = Some (e :: evs (drop (S (c i)) l))) as Ht by (rewrite (Htodo i l Hl), (drop_S _ _ _ Hc); done).
  assert ((r, e) ∈ l) as Hin by (by eapply elem_of_list_lookup_2).
  destruct e as [q k|q j k|q n|x].
  - do 2 eexists. by apply (step_at s i (Snd q k) _ Ht).
  - destruct (rk_get a HR i l r q j k Hl Hin) as (u & lu & r' & Hu & Hsing & Hj & Hlt).
    destruct (decide (j < length (rsends q (take (c u) lu)))%nat) as [Hdone|Hnot].
    + do 2 eexists. apply (step_at s i (Get q j k) _ Ht). cbn. rewrite (Hord q u lu Hu Hsing), list_lookup_fmap.
      rewrite <- (take_drop (c u) lu), rsends_app, lookup_app_l in Hj by done. by rewrite Hj.
    + rewrite <- (take_drop (c u) lu), rsends_app, lookup_app_r in Hj by lia.
      assert ((r', Snd q k) ∈ drop (c u) lu) as Hsnd by (apply rsends_elem; by eapply elem_of_list_lookup_2).
      destruct (lu !! c u) as [[r0 e0]|] eqn:Hcu.
      2:{ apply lookup_ge_None in Hcu. rewrite drop_ge in Hsnd by done. by apply elem_of_nil in Hsnd. }
      apply (IH r0) with (i := u) (l := lu) (e := e0); [|done|done].
      eapply rle_rlt; [|exact Hlt]. eapply sorted_drop; [by eapply rk_sorted|exact Hcu|exact Hsnd].
  - pose proof (rk_wait a HR i l r q n Hl Hin) as Hn.
    destruct (decide (Exists (lower c r) (imap pair a))) as [Hex|Hno].
    + apply Exists_exists in Hex as ([u lu] & Hu & H). unfold lower in H. cbn in H. destruct (lu !! c u) as [[r0 e0]|] eqn:Hcu; [|done].
      apply elem_of_lookup_imap_1 in Hu as (u' & lu' & [= <- <-] & Hu). by apply (IH r0 H u lu e0).
    + do 2 eexists. apply (step_at s i (Wai q n) _ Ht). cbn. rewrite Hcount. etrans; [exact Hn|].
      assert (forall u lu, a !! u = Some lu -> length (before r (rsends q lu)) <= length (rsends q (take (c u) lu)))%nat as Hall.
      { intros u lu Hu. rewrite <- (take_drop (c u) lu) at 1. unfold before. rewrite rsends_app, filter_app, app_length.
        assert (filter (fun e : rank * N => rlt e.1 r) (rsends q (drop (c u) lu)) = []) as ->.
        { apply elem_of_nil_inv. intros [r' k'] Hf. apply elem_of_list_filter in Hf as [Hlt Hf]. cbn in Hlt. apply rsends_elem in Hf.
          destruct (lu !! c u) as [[r0 e0]|] eqn:Hcu.
          2:{ apply lookup_ge_None in Hcu. rewrite drop_ge in Hf by done. by apply elem_of_nil in Hf. }
          apply Hno, Exists_exists. exists (u, lu). split; [apply elem_of_lookup_imap; eauto|]. unfold lower. cbn. rewrite Hcu.
          eapply rle_rlt; [|exact Hlt]. eapply sorted_drop; [by eapply rk_sorted|exact Hcu|exact Hf]. }
        rewrite app_nil_r || cbn. pose proof (filter_length (fun e : rank * N => rlt e.1 r) (rsends q (take (c u) lu))). cbn. lia. }
      clear -Hall. unfold prefixes. revert c Hall. induction a as [|l0 a IHa]; [done|]. intros c Hall. rewrite imap_cons. cbn [map concat]. unfold before. rewrite filter_app, !app_length.
      pose proof (Hall 0%nat l0 eq_refl) as H0. unfold before in H0.
      specialize (IHa (fun x => c (S x)) (fun u lu Hu => Hall (S u) lu Hu)). unfold before in IHa.
      assert (imap ((fun i l => take (c i) l) ∘ S) a = imap (fun (i : nat) (l : list (rank * ev)) => take (c (S i)) l) a) as -> by (apply imap_ext; intros; done).
      lia.
  - do 2 eexists. by apply (step_at s i (Act x) _ Ht).
Qed.

Lemma concat_insert_length {A} (ls : list (list A)) i l l' : ls !! i = Some l ->
  (length (concat (<[i := l']> ls)) + length l = length (concat ls) + length l')%nat.
Proof.
  revert i. induction ls as [|x ls IH]; intros i H; [done|]. destruct i as [|i]; cbn in H.
  - injection H as ->. cbn. rewrite !app_length. lia.
  - change (<[S i := l']> (x :: ls)) with (x :: <[i := l']> ls). cbn [concat]. rewrite !app_length. specialize (IH i H). lia.
Qed.
Lemma exec_length s tr s' : exec s tr s' -> (length tr + length (concat (todo s')) = length (concat (todo s)))%nat.
Proof.
  induction 1 as [|s tr s' l s'' _ IH Hs]; [done|]. rewrite app_length. destruct Hs as [s' i e rest Ht _]. cbn [todo length].
  pose proof (concat_insert_length (todo s') i _ rest Ht) as H. cbn in H. lia.
Qed.

Theorem ranked_completes a : ranked a -> completes (map evs a).
Proof.
  intros HR tr s He. destruct (inv_exec _ _ _ He) as [c HI]. split; [|split].
  - pose proof (exec_length _ _ _ He) as H. cbn in H. lia.
  - intros (i & q & j & k & m & rest & Ht & Hj & Hne). destruct (next_ev _ _ _ _ _ _ HI Ht) as (l & r & Hl & Hc & ->).
    destruct (rk_get a HR i l r q j k Hl ltac:(by eapply elem_of_list_lookup_2)) as (u & lu & r' & Hu & Hsing & Hju & _).
    destruct HI as (_ & _ & _ & Hord). rewrite (Hord q u lu Hu Hsing), list_lookup_fmap in Hj.
    destruct (rsends q (take (c u) lu) !! j) as [[r1 m1]|] eqn:E; [|done]. cbn in Hj. injection Hj as ->.
    rewrite <- (take_drop (c u) lu), rsends_app, lookup_app_l, E in Hju by (by eapply lookup_lt_Some). by injection Hju as _ ->.
  - destruct (decide (Exists (fun ul : nat * list (rank * ev) => (c ul.1 < length ul.2)%nat) (imap pair a))) as [Hex|Hno].
    + right. apply Exists_exists in Hex as ([u lu] & Hu & H). cbn in H. apply elem_of_lookup_imap_1 in Hu as (u' & lu' & [= <- <-] & Hu).
      apply lookup_lt_is_Some in H as [[r e] Hc]. by eapply progress.
    + left. apply Forall_lookup. intros i l Hi. destruct HI as (Hlen & Htodo & _).
      assert (i < length a)%nat as Hlt by (rewrite <- Hlen; by apply lookup_lt_Some in Hi). apply lookup_lt_is_Some in Hlt as [la Hla].
      rewrite (Htodo i la Hla) in Hi. injection Hi as <-. rewrite drop_ge; [done|].
      destruct (decide (length la <= c i)%nat); [done|]. exfalso. apply Hno, Exists_exists. exists (i, la). split; [apply elem_of_lookup_imap; eauto|]. cbn. lia.
Qed.
