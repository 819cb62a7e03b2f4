(** Proofs about receiver objects that are used again. *)
From stdpp Require Import sets.
From Verif Require Import Base Bgi_Model Drrn_Model Reuse_Model Reuse_Spec.

(** A run appends to what the object holds. *)
Definition appends (run : list N -> outcome (list N)) : Prop := forall old out, run [] = Done out -> run old = Done (old ++ out).

Lemma history_appends runs outs : Forall appends runs -> freshOuts runs outs ->
  forall old, history initKeeps runs old = Done (old ++ concat outs).
Proof.
  intros A F. induction F as [|run out runs outs E F IH]; intros old; [cbn; by rewrite app_nil_r|].
  inversion A as [|? ? A1 A2]; subst. cbn. unfold initKeeps at 1. rewrite (A1 old out E). rewrite (IH A2). by rewrite app_assoc.
Qed.
Lemma history_last init runs last old mid : history init runs old = Done mid -> history init (runs ++ [last]) old = last (init mid).
Proof.
  revert old. induction runs as [|run runs IH]; intros old; cbn; [intros [= ->]; by destruct (last (init mid))|].
  destruct (run (init old)); try done. apply IH.
Qed.

Lemma useA_appends P rd R S : appends (useA P rd R S).
Proof.
  intros old out. unfold useA, Rr17a_Model.rr17aRun. cbv zeta.
  repeat match goal with |- context [match ?x with _ => _ end] => destruct x; try done end.
  all: cbn; intros [= <-]; done.
Qed.
Lemma useB_appends ss P rd R S : appends (useB ss P rd R S).
Proof.
  intros old out. unfold useB, Rr17b_Model.rr17bRun. cbv zeta.
  repeat match goal with |- context [match ?x with _ => _ end] => destruct x; try done end.
  all: cbn; intros [= <-]; done.
Qed.
Lemma useG_appends P rd ownR lS R S : appends (useG P rd ownR lS R S).
Proof.
  intros old out. unfold useG, Grr18_Model.grrRun. cbv zeta.
  repeat match goal with |- context [match ?x with _ => _ end] => destruct x; try done end.
  all: cbn; intros [= <-]; done.
Qed.
Lemma use16_appends aes ro seed m nh T n total zeros ones rmsgs smsgs sampled R S mergeOrd outOrd :
  appends (use16 aes ro seed m nh T n total zeros ones rmsgs smsgs sampled R S mergeOrd outOrd).
Proof.
  intros old out. unfold use16, Rr16_Model.rr16Run.
  repeat match goal with |- context [match ?x with _ => _ end] => destruct x; try done end.
  all: unfold Rr16_Model.recvSecond; cbn; intros [= <-]; done.
Qed.

(** ** PIR-PSI *)

Lemma matched_items final reals :
  map (fun k => match reals !! k with Some (i, _) => i | None => 0%nat end) (matched final reals) = map fst (filter (fun e : nat * N => e.2 ∈ final) reals).
Proof.
  unfold matched. assert (forall (pre : list (nat * N)), let all := pre ++ reals in
    map (fun k => match all !! k with Some (i, _) => i | None => 0%nat end)
      (omap (fun k => match all !! k with Some (_, s) => if decide (s ∈ final) then Some k else None | None => None end) (seq (length pre) (length reals))) =
    map fst (filter (fun e : nat * N => e.2 ∈ final) reals)) as G; [|exact (G [])].
  induction reals as [|[i s] reals IH]; intros pre all; [done|]. cbn [length seq omap list_omap].
  assert (all !! length pre = Some (i, s)) as E by (unfold all; by rewrite list_lookup_middle).
  specialize (IH (pre ++ [(i, s)])). cbv zeta in IH. rewrite app_length, Nat.add_1_r, <- app_assoc in IH. cbn [app] in IH. fold all in IH.
  rewrite E. rewrite filter_cons. cbn [snd]. destruct (decide (s ∈ final)) as [D|D].
  - cbn [map fst]. rewrite E. f_equal. exact IH.
  - exact IH.
Qed.

Lemma remove_dups_twice (l m : list nat) : forall i, i ∈ remove_dups (l ++ m) <-> i ∈ l \/ i ∈ m.
Proof. intros i. by rewrite elem_of_remove_dups, elem_of_app. Qed.

Section use.
Context (p : dparams) (enc : N -> N) (aes : bool -> N -> N) (prng : N -> N * N) (c : dchoices) (serverSet bins inputs : list N).
(** The run up to the final protocol. *)
Lemma use_split : 
  (exists reals final, drrn p enc aes prng c serverSet bins inputs = Some (remove_dups (map fst (filter (fun e : nat * N => e.2 ∈ final) reals))) /\
    forall cl, drrnUse cl p enc aes prng c serverSet bins inputs = Some (collectOut cl reals final)) \/
  (drrn p enc aes prng c serverSet bins inputs = None /\ forall cl, drrnUse cl p enc aes prng c serverSet bins inputs = None).
Proof using Type.
  unfold drrn, drrnUse. cbv zeta.
  repeat match goal with |- context [match ?x with _ => _ end] => destruct x; try (right; split; done) end.
  left. eexists _, _. split; [reflexivity|]. intros cl. reflexivity.
Qed.

Lemma use_fresh out l : drrn p enc aes prng c serverSet bins inputs = Some out ->
  exists cl, drrnUse (mkDclient [] l) p enc aes prng c serverSet bins inputs = Some cl /\ (l = [] -> dcOut cl = out) /\
    forall i, i ∈ dcOut cl <-> i ∈ l \/ i ∈ out.
Proof using Type.
  intros E. destruct use_split as [(reals & final & E1 & E2)|[E1 _]]; [|congruence]. rewrite E1 in E. injection E as <-.
  eexists. split; [apply E2|]. cbn [collectOut dcOut dcPsi app]. rewrite matched_items. split; [by intros ->|].
  intros i. by rewrite !elem_of_remove_dups, elem_of_app.
Qed.

Lemma use_again cl cl' : drrnUse cl p enc aes prng c serverSet bins inputs = Some cl' ->
  exists new out, dcPsi cl' = dcPsi cl ++ new /\ drrn p enc aes prng c serverSet bins inputs = Some out /\
    (forall i, i ∈ dcOut cl \/ i ∈ out -> i ∈ dcOut cl').
Proof using Type.
  destruct use_split as [(reals & final & E1 & E2)|[_ E1]]; [|rewrite E1; done]. rewrite E2. intros [= <-].
  eexists _, _. split; [reflexivity|]. split; [exact E1|]. intros i. cbn [collectOut dcOut dcPsi]. rewrite map_app, matched_items.
  rewrite !elem_of_remove_dups, !elem_of_app. tauto.
Qed.
End use.
