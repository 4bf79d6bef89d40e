(** What closing the opens of an image does to the protocol database. *)
From Verif Require Import Base.Prelude Base.Omap Protocol.Model Protocol.Spec Protocol.Proofs Protocol.Usage
  Protocol.Services Protocol.SvcProofs Protocol.Props Image.Model Image.Spec.
Local Open Scope N_scope.

(** Opens only disappear. *)
Definition shrinks (s s' : pstate) : Prop := forall h g a c x,
  opens (fst s') h g a c x = opens (fst s) h g a c x \/ opens (fst s') h g a c x = 0.
Lemma shrinks_refl s : shrinks s s. Proof. intros h g a c x. left. reflexivity. Qed.
Lemma shrinks_trans s1 s2 s3 : shrinks s1 s2 -> shrinks s2 s3 -> shrinks s1 s3.
Proof.
  intros A B h g a c x. destruct (B h g a c x) as [E|E]; [|right; exact E]. rewrite E. apply A.
Qed.
Lemma shrinks_held s s' h g a c x : shrinks s s' -> held (fst s') h g a c x -> held (fst s) h g a c x.
Proof. intros A Hh E. destruct (A h g a c x) as [X|X]; apply Hh; congruence. Qed.

Lemma call_shrinks s o : shist s -> (match o with OInstall _ _ _ | OOpen _ _ _ _ _ => False | _ => True end) ->
  shrinks s (snd (call s o)).
Proof.
  intros H Ho. destruct (call s o) as [r s'] eqn:E. apply call_eq in E; [|exact H]. destruct E as (_ & T & _). cbn [snd].
  intros h g a c x. rewrite T. destruct o; try contradiction; try (left; reflexivity); cbn [opens].
  - destruct r; auto. destruct (_ && _); auto.
  - destruct agent; auto. destruct r; auto. destruct (_ && _); auto.
Qed.

Lemma usages_of_shrinks s h g : shist s -> shrinks s (snd (usages_of s h g)).
Proof.
  intros H. unfold usages_of. pose proof (call_shrinks s (OOpenInfo h g) H Logic.I) as K.
  destruct (call s (OOpenInfo h g)) as [r s1]. cbn [snd] in K. destruct r; try exact K. destruct e; exact K.
Qed.
Lemma disc_loop_shrinks fuel env h g : quiet env -> forall s, shist s -> shrinks s (snd (disc_loop fuel env s h g)).
Proof.
  intros Q. induction fuel as [|f IH]; intros s H; cbn [disc_loop]; [apply shrinks_refl|].
  pose proof (usages_of_hist s h g H) as H1. pose proof (usages_of_shrinks s h g H) as K1.
  destruct (usages_of s h g) as [[st us] s1]. cbn [snd] in H1, K1.
  destruct st; try exact K1. destruct (find _ us) as [u|]; [|exact K1].
  destruct Q as (_ & Qd & _). specialize (Qd (fst s1) h (u_agent u)).
  destruct (e_disc env (fst s1) h (u_agent u)) as [ok ops]. cbn [snd] in Qd. subst ops. cbn [calls].
  destruct ok; [|exact K1]. eapply shrinks_trans; [exact K1|]. apply IH, H1.
Qed.
Lemma drop_soft_shrinks h g us : forall s b, shist s -> shrinks s (snd (drop_soft s h g us b)).
Proof.
  induction us as [|u t IH]; intros s b H; cbn [drop_soft]; [apply shrinks_refl|].
  destruct (has_bit (u_attr u) SOFT_OPENS); [|apply IH, H].
  pose proof (call_hist s (OClose h g (u_agent u) (u_ctrl u) (Some (u_attr u))) H) as H1.
  pose proof (call_shrinks s (OClose h g (u_agent u) (u_ctrl u) (Some (u_attr u))) H Logic.I) as K1.
  destruct (call s _) as [r s1]. cbn [snd] in *. eapply shrinks_trans; [exact K1|]. destruct r; apply IH, H1.
Qed.
Lemma core_uninstall_shrinks fuel env s h g i : quiet env -> shist s ->
  shrinks s (snd (core_uninstall fuel env s h g i)).
Proof.
  intros Q H. unfold core_uninstall. pose proof (call_hist s (OGetInterface h g) H) as H1.
  pose proof (call_shrinks s (OGetInterface h g) H Logic.I) as K1.
  destruct (call s (OGetInterface h g)) as [r s1]. cbn [snd] in H1, K1. destruct r; try exact K1.
  destruct (negb (i0 =? i)); [exact K1|].
  pose proof (disc_loop_hist fuel env h g s1 H1) as H2. pose proof (disc_loop_shrinks fuel env h g Q s1 H1) as K2.
  destruct (disc_loop fuel env s1 h g) as [[st b] s2]. cbn [snd] in H2, K2.
  pose proof (shrinks_trans _ _ _ K1 K2) as K12. destruct st; try exact K12.
  assert (F : forall s2 b, shist s2 -> shrinks s s2 -> shrinks s (snd (finish_uninstall env s2 h g i b))).
  { intros s5 b5 H5 K5. unfold finish_uninstall. destruct b5.
    - destruct Q as (_ & _ & Qc). rewrite Qc. exact K5.
    - pose proof (call_shrinks s5 (OUninstall h g i) H5 Logic.I) as K6. destruct (call s5 (OUninstall h g i)). cbn [snd] in *.
      exact (shrinks_trans _ _ _ K5 K6). }
  destruct b; [|apply F; assumption].
  pose proof (usages_of_hist s2 h g H2) as H3. pose proof (usages_of_shrinks s2 h g H2) as K3.
  destruct (usages_of s2 h g) as [[st us] s3]. cbn [snd] in H3, K3.
  pose proof (shrinks_trans _ _ _ K12 K3) as K13. destruct st; try exact K13.
  pose proof (drop_soft_hist h g us s3 false H3) as H4. pose proof (drop_soft_shrinks h g us s3 false H3) as K4.
  destruct (drop_soft s3 h g us false) as [uc s4]. cbn [snd] in H4, K4. apply F; [exact H4|]. exact (shrinks_trans _ _ _ K13 K4).
Qed.

Lemma keeps_live s s' h : keeps s s' -> (live (fst s') h <-> live (fst s) h).
Proof. intros K. split; intros (g & i & E); exists g, i; [rewrite <- K|rewrite K]; exact E. Qed.
Lemma keeps_olive s s' c : keeps s s' -> (olive (fst s') c <-> olive (fst s) c).
Proof. intros K. destruct c; [apply keeps_live, K|reflexivity]. Qed.

(** Closing one recorded open of a live agent works unless its controller is gone. *)
Lemma close_held s h g a c x : shist s -> held (fst s) h g a c x -> live (fst s) a -> olive (fst s) c ->
  fst (call s (OClose h g (Some a) c (Some x))) = OutUnit.
Proof.
  intros H Hh Ha Hc. destruct (held_usage _ _ _ _ _ _ _ H Hh) as (it & u & G & _ & Hu & U1 & U2 & U3).
  unfold call. cbn [pstep]. unfold close_usage.
  assert (Vh : validate (snd s) h = Ok tt).
  { unfold validate, om_mem. unfold get_inst in G. destruct (om_get (p_handles (snd s)) h); [reflexivity|discriminate]. }
  assert (Va : ovalidate (snd s) (Some a) = Ok tt).
  { unfold ovalidate, validate, om_mem. apply (hist_live _ _ _ H) in Ha. destruct (om_get (p_handles (snd s)) a); [reflexivity|congruence]. }
  assert (Vc : ovalidate (snd s) c = Ok tt).
  { destruct c as [c|]; [|reflexivity]. unfold ovalidate, validate, om_mem. apply (hist_live _ _ _ H) in Hc.
    destruct (om_get (p_handles (snd s)) c); [reflexivity|congruence]. }
  rewrite Vh, Va, Vc, G.
  pose proof (close_loop_spec (S (length (i_usage it))) (close_match (Some a) c (Some x)) it false ltac:(lia)) as C.
  destruct (close_loop _ _ it false) as [it' b]. destruct C as (_ & _ & _ & _ & ->). cbn [orb fst].
  assert (existsb (close_match (Some a) c (Some x)) (i_usage it) = true) as ->; [|reflexivity].
  apply existsb_exists. exists u. split; [exact Hu|]. unfold close_match. rewrite U1, U2, U3, !oeqb_refl.
  cbn. rewrite ?N.eqb_refl. reflexivity.
Qed.

Lemma close_call_opens s h g a c x : shist s -> fst (call s (OClose h g (Some a) c (Some x))) = OutUnit ->
  opens (fst (snd (call s (OClose h g (Some a) c (Some x))))) h g a c x = 0.
Proof.
  intros H E. destruct (call s _) as [r s'] eqn:C. cbn [fst] in E. subst r. apply call_eq in C; [|exact H]. destruct C as (_ & T & _).
  cbn [snd]. rewrite T. cbn [opens]. rewrite !N.eqb_refl, oeqb_refl. reflexivity.
Qed.

(** The opens of [img] on the instance that a list of usages shows. *)
Lemma close_uses_ok img h g us : forall d, shist d -> live (fst d) img ->
  let d' := close_uses d img h g us in
  shist d' /\ keeps d d' /\ shrinks d d' /\
  forall c x, (exists u, In u us /\ u_agent u = Some img /\ u_ctrl u = c /\ u_attr u = x) ->
              held (fst d') h g img c x -> ~ olive (fst d) c.
Proof.
  induction us as [|u t IH]; intros d H L; cbn [close_uses].
  - split; [exact H|]. split; [apply keeps_refl|]. split; [apply shrinks_refl|]. intros c x (u & [] & _).
  - set (d1 := if oeqb (Some img) (u_agent u) then _ else d).
    assert (P : shist d1 /\ keeps d d1 /\ shrinks d d1).
    { unfold d1. destruct (oeqb _ _); [|auto using keeps_refl, shrinks_refl]. split; [apply call_hist, H|].
      split; [apply call_keeps; [exact H|exact Logic.I]|apply call_shrinks; [exact H|exact Logic.I]]. }
    destruct P as (H1 & K1 & S1). assert (L1 : live (fst d1) img) by (apply (keeps_live _ _ _ K1); exact L).
    destruct (IH d1 H1 L1) as (H2 & K2 & S2 & C2). split; [exact H2|]. split; [exact (keeps_trans _ _ _ K1 K2)|].
    split; [exact (shrinks_trans _ _ _ S1 S2)|].
    intros c x (v & Hv & V1 & V2 & V3) Hh. destruct Hv as [->|Hv].
    + intros Hc. pose proof (shrinks_held _ _ _ _ _ _ _ S2 Hh) as Hh1. pose proof (shrinks_held _ _ _ _ _ _ _ S1 Hh1) as Hh0.
      apply Hh1. unfold d1. rewrite V1, V2, V3, oeqb_refl. apply close_call_opens; [exact H|].
      apply close_held; assumption.
    + rewrite <- (keeps_olive _ _ c K1). apply (C2 c x); [|exact Hh]. exists v. auto.
Qed.

Lemma call_same s o : shist s -> (match o with OInstall _ _ _ | OOpen _ _ _ _ _ | OUninstall _ _ _ => False | _ => True end) ->
  shist (snd (call s o)) /\ keeps s (snd (call s o)) /\ shrinks s (snd (call s o)).
Proof.
  intros H Ho. split; [apply call_hist, H|]. split; [apply call_keeps|apply call_shrinks]; try exact H; destruct o; tauto.
Qed.

Lemma open_info_call s h g i : shist s -> installed (fst s) h g = Some i ->
  exists us, fst (call s (OOpenInfo h g)) = OutUsages us /\
    forall a c x, held (fst s) h g a c x -> exists u, In u us /\ u_agent u = Some a /\ u_ctrl u = c /\ u_attr u = x.
Proof.
  intros H Hi. pose proof Hi as Hi2. rewrite <- (hist_iface _ _ H) in Hi. destruct (get_inst (snd s) h g) as [it|] eqn:G; [|discriminate].
  exists (i_usage it). split.
  - unfold call. cbn [pstep fst]. unfold open_info, validate, om_mem. rewrite G. unfold get_inst in G.
    destruct (om_get (p_handles (snd s)) h); [reflexivity|discriminate].
  - intros a c x Hh. destruct (held_usage _ _ _ _ _ _ _ H Hh) as (it2 & u & G2 & _ & Hu & U). rewrite G in G2. injection G2 as <-.
    exists u. tauto.
Qed.

Lemma close_protocols_ok img h gs : forall d, shist d -> live (fst d) img ->
  let d' := close_protocols d img h gs in
  shist d' /\ keeps d d' /\ shrinks d d' /\
  forall g c x, In g gs -> held (fst d') h g img c x -> ~ olive (fst d) c.
Proof.
  induction gs as [|g t IH]; intros d H L; cbn [close_protocols].
  - split; [exact H|]. split; [apply keeps_refl|]. split; [apply shrinks_refl|]. intros g c x [].
  - destruct (call_same d (OOpenInfo h g) H Logic.I) as (H1 & K1 & S1).
    destruct (call d (OOpenInfo h g)) as [r d1] eqn:E. cbn [snd] in H1, K1, S1.
    assert (L1 : live (fst d1) img) by (apply (keeps_live _ _ _ K1); exact L).
    set (d2 := match r with OutUsages us => _ | _ => d1 end).
    assert (P : shist d2 /\ keeps d d2 /\ shrinks d d2 /\ forall c x, held (fst d2) h g img c x -> ~ olive (fst d) c).
    { assert (Q : forall us, shist (close_uses d1 img h g us) /\ keeps d (close_uses d1 img h g us) /\ shrinks d (close_uses d1 img h g us)).
      { intros us. destruct (close_uses_ok img h g us d1 H1 L1) as (A & B & C & _). split; [exact A|].
        split; [exact (keeps_trans _ _ _ K1 B)|exact (shrinks_trans _ _ _ S1 C)]. }
      assert (P0 : shist d2 /\ keeps d d2 /\ shrinks d d2) by (unfold d2; destruct r; auto).
      destruct P0 as (A & B & C). split; [exact A|]. split; [exact B|]. split; [exact C|].
      intros c x Hh. pose proof (shrinks_held _ _ _ _ _ _ _ C Hh) as Hh0.
      destruct (held_usage _ _ _ _ _ _ _ H Hh0) as (it & u & G & _).
      assert (Hi : installed (fst d) h g = Some (i_iface it)) by (rewrite <- (hist_iface _ _ H), G; reflexivity).
      destruct (open_info_call d h g _ H Hi) as (us & Er & Hus). rewrite E in Er. cbn [fst] in Er. subst r.
      unfold d2 in Hh. destruct (close_uses_ok img h g us d1 H1 L1) as (_ & _ & _ & D).
      rewrite <- (keeps_olive _ _ c K1). apply (D c x); [|exact Hh]. apply Hus. exact Hh0. }
    destruct P as (H2 & K2 & S2 & D2). assert (L2 : live (fst d2) img) by (apply (keeps_live _ _ _ K2); exact L).
    destruct (IH d2 H2 L2) as (H3 & K3 & S3 & D3). split; [exact H3|]. split; [exact (keeps_trans _ _ _ K2 K3)|].
    split; [exact (shrinks_trans _ _ _ S2 S3)|]. intros g' c x [<-|Hg] Hh.
    + apply (D2 c x). exact (shrinks_held _ _ _ _ _ _ _ S3 Hh).
    + rewrite <- (keeps_olive _ _ c K2). exact (D3 _ _ _ Hg Hh).
Qed.

Lemma close_handles_ok img hs : forall d, shist d -> live (fst d) img ->
  let d' := close_handles d img hs in
  shist d' /\ keeps d d' /\ shrinks d d' /\
  forall h g c x, In h hs -> held (fst d') h g img c x -> ~ olive (fst d) c.
Proof.
  induction hs as [|h t IH]; intros d H L; cbn [close_handles].
  - split; [exact H|]. split; [apply keeps_refl|]. split; [apply shrinks_refl|]. intros h g c x [].
  - destruct (call_same d (OProtocols h) H Logic.I) as (H1 & K1 & S1).
    destruct (call d (OProtocols h)) as [r d1] eqn:E. cbn [snd] in H1, K1, S1.
    assert (L1 : live (fst d1) img) by (apply (keeps_live _ _ _ K1); exact L).
    set (d2 := match r with OutGuids gs => _ | _ => d1 end).
    assert (P : shist d2 /\ keeps d d2 /\ shrinks d d2 /\ forall g c x, held (fst d2) h g img c x -> ~ olive (fst d) c).
    { assert (Q : forall gs, shist (close_protocols d1 img h gs) /\ keeps d (close_protocols d1 img h gs) /\ shrinks d (close_protocols d1 img h gs)).
      { intros us. destruct (close_protocols_ok img h us d1 H1 L1) as (A & B & C & _). split; [exact A|].
        split; [exact (keeps_trans _ _ _ K1 B)|exact (shrinks_trans _ _ _ S1 C)]. }
      assert (P0 : shist d2 /\ keeps d d2 /\ shrinks d d2) by (unfold d2; destruct r; auto).
      destruct P0 as (A & B & C). split; [exact A|]. split; [exact B|]. split; [exact C|].
      intros g c x Hh. pose proof (shrinks_held _ _ _ _ _ _ _ C Hh) as Hh0.
      destruct (held_usage _ _ _ _ _ _ _ H Hh0) as (it & u & G & _).
      assert (Hi : installed (fst d) h g = Some (i_iface it)) by (rewrite <- (hist_iface _ _ H), G; reflexivity).
      assert (Lh : live (fst d) h) by (exists g, (i_iface it); exact Hi).
      destruct (protocol_protocols_on_handle _ _ h H) as [X _]. destruct (X Lh) as (gs & Eg & _ & Hg).
      unfold call in E. rewrite Eg in E. apply pair_equal_spec in E. destruct E as [<- _].
      unfold d2 in Hh. destruct (close_protocols_ok img h gs d1 H1 L1) as (_ & _ & _ & D).
      rewrite <- (keeps_olive _ _ c K1). apply (D g c x); [|exact Hh]. apply Hg. exists (i_iface it). exact Hi. }
    destruct P as (H2 & K2 & S2 & D2). assert (L2 : live (fst d2) img) by (apply (keeps_live _ _ _ K2); exact L).
    destruct (IH d2 H2 L2) as (H3 & K3 & S3 & D3). split; [exact H3|]. split; [exact (keeps_trans _ _ _ K2 K3)|].
    split; [exact (shrinks_trans _ _ _ S2 S3)|]. intros h' g' c x [<-|Hg] Hh.
    + apply (D2 g' c x). exact (shrinks_held _ _ _ _ _ _ _ S3 Hh).
    + rewrite <- (keeps_olive _ _ c K2). exact (D3 _ _ _ _ Hg Hh).
Qed.

(** After closing, the image holds no protocol open through a controller that exists. *)
Lemma close_all_ok img d : shist d -> live (fst d) img ->
  let d' := close_all d img in
  shist d' /\ keeps d d' /\ shrinks d d' /\ forall h g c x, held (fst d') h g img c x -> ~ olive (fst d) c.
Proof.
  intros H L. unfold close_all. destruct (call_same d (OLocate None) H Logic.I) as (H1 & K1 & S1).
  destruct (call d (OLocate None)) as [r d1] eqn:E. cbn [snd] in H1, K1, S1.
  assert (L1 : live (fst d1) img) by (apply (keeps_live _ _ _ K1); exact L).
  set (hs := match r with OutHandles l => l | _ => [] end).
  destruct (close_handles_ok img hs d1 H1 L1) as (H2 & K2 & S2 & D2).
  split; [exact H2|]. split; [exact (keeps_trans _ _ _ K1 K2)|]. split; [exact (shrinks_trans _ _ _ S1 S2)|].
  intros h g c x Hh. rewrite <- (keeps_olive _ _ c K1). apply (D2 h g c x); [|exact Hh].
  pose proof (shrinks_held _ _ _ _ _ _ _ (shrinks_trans _ _ _ S1 S2) Hh) as Hh0.
  destruct (held_usage _ _ _ _ _ _ _ H Hh0) as (it & u & G & _).
  assert (Hi : installed (fst d) h g = Some (i_iface it)) by (rewrite <- (hist_iface _ _ H), G; reflexivity).
  pose proof (protocol_locate_handles _ _ None H) as Lc. unfold call in E.
  destruct (pstep (snd d) (OLocate None)) as [r0 d0]. apply pair_equal_spec in E. destruct E as [<- _].
  destruct r0; try contradiction.
  - unfold hs. destruct Lc as (_ & _ & _ & X & _). apply X. exists g, (i_iface it). exact Hi.
  - exfalso. destruct Lc as (_ & _ & X). apply (X h). exists g, (i_iface it). exact Hi.
Qed.
(** The part that does not need a live image. *)
Lemma close_uses_keeps img h g us : forall d, shist d ->
  let d' := close_uses d img h g us in shist d' /\ keeps d d' /\ shrinks d d'.
Proof.
  induction us as [|u t IH]; intros d H; cbn [close_uses]; [auto using keeps_refl, shrinks_refl|].
  set (d1 := if oeqb (Some img) (u_agent u) then _ else d).
  assert (P : shist d1 /\ keeps d d1 /\ shrinks d d1).
  { unfold d1. destruct (oeqb _ _); [|auto using keeps_refl, shrinks_refl]. apply call_same; [exact H|exact Logic.I]. }
  destruct P as (H1 & K1 & S1). destruct (IH d1 H1) as (H2 & K2 & S2).
  split; [exact H2|]. split; [exact (keeps_trans _ _ _ K1 K2)|exact (shrinks_trans _ _ _ S1 S2)].
Qed.
Lemma close_protocols_keeps img h gs : forall d, shist d ->
  let d' := close_protocols d img h gs in shist d' /\ keeps d d' /\ shrinks d d'.
Proof.
  induction gs as [|g t IH]; intros d H; cbn [close_protocols]; [auto using keeps_refl, shrinks_refl|].
  destruct (call_same d (OOpenInfo h g) H Logic.I) as (H1 & K1 & S1).
  destruct (call d (OOpenInfo h g)) as [r d1]. cbn [snd] in H1, K1, S1.
  set (d2 := match r with OutUsages us => _ | _ => d1 end).
  assert (P : shist d2 /\ keeps d1 d2 /\ shrinks d1 d2).
  { unfold d2. destruct r; auto using keeps_refl, shrinks_refl. apply close_uses_keeps, H1. }
  destruct P as (H2 & K2 & S2). destruct (IH d2 H2) as (H3 & K3 & S3). split; [exact H3|].
  split; [exact (keeps_trans _ _ _ K1 (keeps_trans _ _ _ K2 K3))|exact (shrinks_trans _ _ _ S1 (shrinks_trans _ _ _ S2 S3))].
Qed.
Lemma close_handles_keeps img hs : forall d, shist d ->
  let d' := close_handles d img hs in shist d' /\ keeps d d' /\ shrinks d d'.
Proof.
  induction hs as [|h t IH]; intros d H; cbn [close_handles]; [auto using keeps_refl, shrinks_refl|].
  destruct (call_same d (OProtocols h) H Logic.I) as (H1 & K1 & S1).
  destruct (call d (OProtocols h)) as [r d1]. cbn [snd] in H1, K1, S1.
  set (d2 := match r with OutGuids gs => _ | _ => d1 end).
  assert (P : shist d2 /\ keeps d1 d2 /\ shrinks d1 d2).
  { unfold d2. destruct r; auto using keeps_refl, shrinks_refl. apply close_protocols_keeps, H1. }
  destruct P as (H2 & K2 & S2). destruct (IH d2 H2) as (H3 & K3 & S3). split; [exact H3|].
  split; [exact (keeps_trans _ _ _ K1 (keeps_trans _ _ _ K2 K3))|exact (shrinks_trans _ _ _ S1 (shrinks_trans _ _ _ S2 S3))].
Qed.
Lemma close_all_keeps img d : shist d -> let d' := close_all d img in shist d' /\ keeps d d' /\ shrinks d d'.
Proof.
  intros H. unfold close_all. destruct (call_same d (OLocate None) H Logic.I) as (H1 & K1 & S1).
  destruct (call d (OLocate None)) as [r d1]. cbn [snd] in H1, K1, S1.
  destruct (close_handles_keeps img (match r with OutHandles l => l | _ => [] end) d1 H1) as (H2 & K2 & S2).
  split; [exact H2|]. split; [exact (keeps_trans _ _ _ K1 K2)|exact (shrinks_trans _ _ _ S1 S2)].
Qed.
