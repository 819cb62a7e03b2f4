(** Proofs about the mask messages of DKT. *)
From Verif Require Import Base Dkt_Model DktMask_Model DktMask_Spec.
Local Open Scope nat_scope.

Lemma positions_omap f l : omap f l = positionsOf f l.
Proof. unfold positionsOf. induction l as [|x l IH]; [done|]. cbn. rewrite <- IH. by destruct (f x). Qed.

Lemma loop_ok table msgs : forall need out rest, completes_at need msgs ->
  maskLoop table need (msgs ++ rest) out = Done (out ++ positionsOf (lookupTs table) (concat msgs), rest).
Proof.
  induction msgs as [|v msgs IH]; intros need out rest [H1 H2].
  - cbn in H1. assert (need = 0) as -> by lia. unfold positionsOf. destruct rest; cbn; by rewrite app_nil_r.
  - assert (0 < need) as Hn by (specialize (H2 [] (v :: msgs) eq_refl ltac:(done)); cbn in H2; lia).
    destruct need as [|need]; [lia|]. cbn [maskLoop app]. rewrite IH.
    + rewrite positions_omap. f_equal. f_equal. unfold positionsOf. cbn [concat]. by rewrite map_app, concat_app, app_assoc.
    + cbn [concat] in H1. rewrite app_length in H1. split; [lia|]. intros a b -> Hb. specialize (H2 (v :: a) b eq_refl Hb). cbn [concat] in H2. rewrite app_length in H2. lia.
Qed.

Lemma loop_waits table msgs : forall need out, length (concat msgs) < need -> maskLoop table need msgs out = OutOfFuel.
Proof.
  induction msgs as [|v msgs IH]; intros need out H; cbn [concat length] in H; (destruct need as [|need]; [lia|]); cbn [maskLoop]; [done|].
  apply IH. rewrite app_length in H. lia.
Qed.

Lemma views_nonempty step fuel : forall l, 0 < step -> Forall (fun v => v <> [] /\ length v <= step) (maskViews step fuel l).
Proof.
  induction fuel as [|fuel IH]; intros l Hs; [constructor|]. destruct l as [|x l]; [constructor|]. cbn [maskViews]. constructor; [|by apply IH].
  split; [|rewrite take_length; lia]. destruct step; [lia|]. done.
Qed.
Lemma views_concat step fuel : forall l, 0 < step -> length l <= fuel -> concat (maskViews step fuel l) = l.
Proof.
  induction fuel as [|fuel IH]; intros l Hs Hf; [destruct l; [done|cbn in Hf; lia]|]. destruct l as [|x l]; [done|]. cbn [maskViews concat].
  rewrite IH; [apply take_drop|done|]. rewrite drop_length. cbn [length] in *. lia.
Qed.
Lemma completes_nonempty msgs : Forall (fun v : list N => v <> []) msgs -> completes_at (length (concat msgs)) msgs.
Proof.
  intros HF. split; [done|]. intros a b -> Hb. rewrite concat_app, app_length. apply Forall_app in HF as [_ HF]. destruct b as [|v b]; [done|].
  apply Forall_cons in HF as [Hv _]. cbn [concat]. rewrite app_length. destruct v; [done|]. cbn [length]. lia.
Qed.
Lemma honest_ok table l rest out : maskLoop table (length l) (maskViews viewStep (length l) l ++ rest) out = Done (out ++ positionsOf (lookupTs table) l, rest).
Proof.
  pose proof (views_concat viewStep (length l) l ltac:(unfold viewStep; lia) ltac:(lia)) as E. rewrite <- E at 1. rewrite loop_ok; [by rewrite E|]. apply completes_nonempty.
  eapply Forall_impl; [apply views_nonempty; unfold viewStep; lia|]. by intros ? [? _].
Qed.

Lemma done_cases table need msgs out r : maskLoop table need msgs out = Done r ->
  exists taken, msgs = taken ++ r.2 /\ completes_at need taken /\ r.1 = out ++ positionsOf (lookupTs table) (concat taken).
Proof.
  revert need out. induction msgs as [|v msgs IH]; intros need out E; destruct need as [|need]; cbn [maskLoop] in E.
  - injection E as <-. exists []. cbn. unfold positionsOf. cbn. rewrite app_nil_r. repeat split; [lia|]. intros a b Hab Hb. symmetry in Hab. apply app_eq_nil in Hab as [_ ->]. done.
  - done.
  - injection E as <-. exists []. cbn. unfold positionsOf. cbn. rewrite app_nil_r. repeat split; [lia|]. intros a b Hab Hb. symmetry in Hab. apply app_eq_nil in Hab as [_ ->]. done.
  - apply IH in E as (tk & -> & [H1 H2] & E). exists (v :: tk). split; [done|]. split.
    + split; [cbn [concat]; rewrite app_length; lia|]. intros a b Hab Hb. destruct a as [|v' a]; [cbn; lia|]. injection Hab as <- Hab.
      specialize (H2 a b Hab Hb). cbn [concat]. rewrite app_length. lia.
    + rewrite E, positions_omap. unfold positionsOf. cbn [concat]. by rewrite map_app, concat_app, app_assoc.
Qed.
