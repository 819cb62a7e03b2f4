(** Proofs about what the first messages of ECDH show. *)
From Verif Require Import Base Ecdh_Model EcdhHide_Spec.

Section hide.
Context {P : Type}.
Variable (good : P -> Prop) (key : N -> Prop) (smul : P -> N -> P) (enc : P -> N) (dec : N -> P).
Hypothesis Hdec : forall p, dec (enc p) = p.

Lemma one_ok A A' k : keysAct good key smul -> oneKey good key smul -> good A -> good A' -> key k ->
  exists k', key k' /\ enc (smul A' k') = enc (smul A k) /\ forall k'', key k'' -> enc (smul A' k'') = enc (smul A k) -> k'' = k'.
Proof using Hdec.
  intros (H1 & _ & _) HO HA HA' Hk. destruct (HO A' (smul A k) HA' (H1 A k HA Hk)) as (k' & Hk' & E & U). exists k'. split; [done|]. split; [by rewrite E|].
  intros k'' Hk'' E''. apply U; [done|]. by rewrite <- (Hdec (smul A' k'')), E''.
Qed.

Lemma many_ok (l l' : list P) k : keysAct good key smul -> Forall good l -> Forall good l' -> key k ->
  (exists k', key k' /\ map (fun A => enc (smul A k')) l' = map (fun A => enc (smul A k)) l) <-> sameRatios key smul l l'.
Proof using Hdec.
  intros (H1 & H2 & H3) Hl Hl' Hk. split.
  - intros (k' & Hk' & E). destruct (H3 k Hk) as (m & Hm & Em). destruct (H2 k' m Hk' Hm) as (h & Hh & Eh). exists h. split; [done|].
    revert l' Hl' E. induction l as [|A l IH]; intros [|A' l'] Hl' E; try done. cbn in *. apply Forall_cons in Hl as [HA Hl]. apply Forall_cons in Hl' as [HA' Hl'].
    injection E as E1 E2. f_equal; [|by apply IH]. rewrite <- Eh by done. apply (f_equal dec) in E1. rewrite !Hdec in E1. rewrite E1. by apply Em.
  - intros (h & Hh & <-). destruct (H2 h k Hh Hk) as (m & Hm & Em). exists m. split; [done|]. rewrite map_map. clear Hl. induction l' as [|A l' IH]; [done|].
    apply Forall_cons in Hl' as [HA Hl']. cbn. f_equal; [by rewrite Em|by apply IH].
Qed.
End hide.
