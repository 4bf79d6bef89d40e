(** What one hand-off block does to the map. *)
From Coq Require Import ZifyBool ZifyN.
From Verif Require Import Base.Prelude Align.Model Align.Proofs Align.Main Gcd.Blocks Gcd.Model Gcd.Spec Gcd.BlockProofs Gcd.Proofs Gcd.AllocProofs Gcd.Main Gcd.Hist Gcd.Complete Gcd.Props Alloc.Model Alloc.Spec Alloc.Pool Alloc.Pages Alloc.Calls Alloc.System PreDxe.Model PreDxe.Spec.
Local Open Scope N_scope.

(** ** Allocation at an address takes at most two more descriptors *)
Lemma at_address_blocks : forall g a ty sh len image device v g', map_ok g -> 0 < g_max g < two64 -> word len -> word a ->
  allocate_memory_space g (AtAddress a) ty sh len image device = (Ok v, g') -> clen (g_blocks g') <= clen (g_blocks g) + 2.
Proof.
  intros g a ty sh len image device v g' HM Hmax Hl Hw H. unfold allocate_memory_space in H.
  destruct (g_locked g); [unfold debug_fail in H; destruct (g_dbg g); discriminate|].
  destruct (g_max g =? 0); [discriminate|]. destruct (_ || _ || _); [discriminate|].
  destruct (uadd (g_dbg g) a len) as [e|e|]; try discriminate. destruct (g_max g <? e); [discriminate|].
  unfold allocate_address in H. destruct (len =? 0); [discriminate|].
  destruct (closest_sst g a len (TAllocate image device) HM Hmax Hw Hl) as (pre & x & post & E & C & L & B1 & B2 & P).
  rewrite C, L in H. destruct (if mt_eqb (ms_type (b_st x)) ty then _ else _) as [sh0|e0|]; try discriminate.
  destruct (negb _); [discriminate|].
  destruct (g_sst g (b_base x) a len (TAllocate image device)) as [[k|e0|] g1] eqn:EG.
  - assert (X : g1 = g') by congruence. subst g1. destruct P as (_ & P). cbn [sst_post] in P. tauto.
  - destruct e0; discriminate.
  - discriminate.
Qed.

Lemma allocate_frame : forall g a ty sh len image device r g', map_ok g -> 0 < g_max g < two64 -> word len -> word a ->
  gcd_step g (OpAllocate (AtAddress a) ty sh len image device) = (r, g') -> r <> Panic ->
  g_locked g' = g_locked g /\ g_cap g' = g_cap g /\ clen (g_blocks g') <= clen (g_blocks g) + 2.
Proof.
  intros g a ty sh len image device r g' HM Hmax Hl Hw H NP. cbn [gcd_step] in H.
  pose proof (allocate_spec g (AtAddress a) ty sh len image device r g' HM Hmax Hl Hw H) as P.
  destruct r as [v|e|]; [|subst g'; repeat split; lia|contradiction].
  destruct P as (F & _). apply at_address_blocks in H; auto. rewrite F. repeat split. exact H.
Qed.

(** What taking memory at an address means. *)
Definition took_at (g g' : gcd) (b l own : N) (ty : mem_type) : Prop :=
  exists st, ms_alloc st = false /\ ms_type st = ty /\ range_changed (g_blocks g) (g_blocks g') b l st
                (mkMs true (ms_type st) (ms_caps st) (ms_attrs st) own (ms_device st)).

Lemma gcd_took : forall dbg bits g a ty sh len image v g', reach dbg bits g -> op_wf (OpAllocate (AtAddress a) ty sh len image None) ->
  gcd_step g (OpAllocate (AtAddress a) ty sh len image None) = (Ok v, g') -> took_at g g' a len image ty.
Proof.
  intros dbg bits g a ty sh len image v g' R W S. destruct R as ((n & p & ops & R) & _).
  destruct (allocation_is_safe _ _ _ _ _ _ _ _ _ _ _ _ _ _ R W S) as (_ & _ & _ & B & _ & _ & s & F1 & F2 & _ & _ & _ & _ & F7 & F8).
  cbn [within_bound] in B. subst v. exists s. split; [exact F1|]. split; [exact F2|]. rewrite F2. split; [exact F7|exact F8].
Qed.

(** ** Pages at an address *)
Definition unit_shift (p : platform) (ty : N) : N :=
  if p_aarch64 p then match ty with 0 | 5 | 6 | 10 => 16 | _ => 12 end else 12.

Lemma unit_pow : forall p ty, unit_of p ty = 2 ^ unit_shift p ty /\ (unit_shift p ty = 12 \/ unit_shift p ty = 16).
Proof.
  intros p ty. unfold unit_of, unit_shift. destruct (p_aarch64 p); [|auto].
  destruct ty as [|[[[x|x|]|[x|x|]|]|[[x|x|]|[x|x|]|]|]]; auto; destruct x; auto.
Qed.

Lemma granularity_unit : forall p ty, granularity_for p ty = unit_of p ty.
Proof.
  intros p ty. unfold granularity_for, unit_of. destruct (p_aarch64 p); [|now rewrite andb_false_r]. rewrite andb_true_r.
  destruct ty as [|[[[x|x|]|[x|x|]|]|[[x|x|]|[x|x|]|]|]]; auto; destruct x; auto.
Qed.

Lemma handle_holder : forall p ty h, handle_for p ty = Some h -> h = holder p ty.
Proof.
  intros p ty h. unfold handle_for.
  destruct (N.eqb_spec ty 0) as [->|]; [now inversion 1|]. destruct (N.eqb_spec ty 1) as [->|]; [now inversion 1|].
  destruct (N.eqb_spec ty 2) as [->|]; [now inversion 1|]. destruct (N.eqb_spec ty 3) as [->|]; [now inversion 1|].
  destruct (N.eqb_spec ty 4) as [->|]; [now inversion 1|]. destruct (N.eqb_spec ty 5) as [->|]; [now inversion 1|].
  destruct (N.eqb_spec ty 6) as [->|]; [now inversion 1|]. destruct (N.eqb_spec ty 9) as [->|]; [now inversion 1|].
  destruct (N.eqb_spec ty 10) as [->|]; [now inversion 1|]. destruct (_ && _); [discriminate|].
  inversion 1; subst. unfold holder. destruct ty as [|[[[[x|x|]|[x|x|]|]|[[x|x|]|[x|x|]|]|]|[[[x|x|]|[x|x|]|]|[[x|x|]|[x|x|]|]|]|]]; try reflexivity; lia.
Qed.

Lemma allocatable_handle : forall p ty, allocatable ty -> handle_for p ty = Some (holder p ty).
Proof.
  intros p ty (A & B). destruct (handle_for p ty) as [h|] eqn:E; [now rewrite (handle_holder _ _ _ E)|].
  exfalso. unfold handle_for in E. repeat match type of E with (if ty =? ?n then _ else _) = _ => destruct (ty =? n); [discriminate|] end.
  destruct ((14 <=? ty) && (ty <=? 0x6FFFFFFF)) eqn:Q; [|discriminate]. lia.
Qed.

Lemma holder_ok : forall p ty, (forall t, p_fresh p t <> 0 /\ word (p_fresh p t)) -> holder p ty <> 0 /\ word (holder p ty).
Proof.
  intros p ty H. unfold holder. destruct ty as [|[[[[x|x|]|[x|x|]|]|[[x|x|]|[x|x|]|]|]|[[[x|x|]|[x|x|]|]|[[x|x|]|[x|x|]|]|]|]]; try apply H; split; try discriminate; reflexivity.
Qed.

(** The chain of computations in front of the call on the map. *)
Lemma pages_request : forall dbg k pages, 12 <= k -> k < 64 -> pages * 4096 < two64 ->
  exists n, (let* q := size_to_pages dbg (2 ^ k) in align_up 64 pages q) = Ok n /\ n * PAGE = round_up (pages * 4096) (2 ^ k).
Proof.
  intros dbg k pages K1 K2 W. destruct (gran_pages dbg k K1 K2) as (Gp & Gm). rewrite Gp. cbn [bind].
  assert (WP : pages < 2 ^ 64) by (change (2 ^ 64) with two64; lia).
  pose proof (align_up_main 64 pages (2 ^ (k - 12)) WP ltac:(apply N.pow_lt_mono_r; lia)) as M.
  destruct (align_up 64 pages (2 ^ (k - 12))) as [n|e|] eqn:EA; [|exfalso|contradiction].
  - exists n. split; [reflexivity|]. apply round_up_pages; auto.
  - destruct M as (_ & [M|M]); [apply M; eauto|]. specialize (M (2 ^ 52)). change (2 ^ 64) with (2 ^ 52 * 4096) in M.
    assert (pages <= 2 ^ 52) by (change two64 with (2 ^ 52 * 4096) in W; lia).
    assert ((2 ^ 52) mod 2 ^ (k - 12) = 0).
    { replace 52 with ((52 - (k - 12)) + (k - 12)) by lia. rewrite N.pow_add_r. apply N.mod_mul. apply N.pow_nonzero. lia. }
    specialize (M H0 H). lia.
Qed.

Lemma round_up_small : forall x k, 12 <= k -> k < 64 -> x < two64 -> round_up x (2 ^ k) <= two64.
Proof.
  intros x k K1 K2 W. unfold round_up. assert (E : two64 = 2 ^ (64 - k) * 2 ^ k) by (rewrite <- N.pow_add_r; change two64 with (2 ^ 64); f_equal; lia).
  rewrite E. apply N.mul_le_mono_r. pose proof (pow2_pos k). rewrite E in W.
  assert ((x + 2 ^ k - 1) / 2 ^ k < 2 ^ (64 - k) + 1); [|lia]. apply N.div_lt_upper_bound; [lia|]. nia.
Qed.

Lemma round_up_exact : forall x m, 0 < m -> x mod m = 0 -> round_up x m = x.
Proof.
  intros x m H M. unfold round_up. apply N.mod_divide in M; [|lia]. destruct M as (q & ->).
  replace (q * m + m - 1) with (q * m + (m - 1)) by lia. rewrite N.div_add_l by lia. rewrite N.div_small by lia. lia.
Qed.

Lemma page_shift_unit : forall k, 12 <= k -> page_shift (2 ^ k) = Ok k.
Proof.
  intros k H. unfold page_shift. assert (P : is_power_of_two (2 ^ k) = true) by (apply is_power_of_two_spec; eauto). rewrite P, N.log2_pow2 by lia.
  cbn [negb orb]. destruct (N.ltb_spec k 12); [lia|reflexivity].
Qed.

Lemma notify_same : forall dbg a b len a', notify_allocation dbg a b len = Ok a' -> same_id a a'.
Proof.
  intros dbg a b len a' H. unfold notify_allocation, update_info in H.
  repeat match goal with
  | H : bind ?x _ = Ok _ |- _ => let E := fresh "E" in destruct x eqn:E; cbn [bind] in H; try discriminate
  | H : Ok _ = Ok _ |- _ => injection H as <-
  | H : (if ?c then _ else _) = Ok _ |- _ => destruct c
  end; repeat split.
Qed.

Definition same_ids (l l' : list alloc) : Prop :=
  map (fun a => (al_type a, al_handle a, al_gran a)) l' = map (fun a => (al_type a, al_handle a, al_gran a)) l.

Lemma same_ids_mid : forall pre a a' post, same_id a a' -> same_ids (pre ++ a :: post) (pre ++ a' :: post).
Proof. intros pre a a' post (A & B & C). unfold same_ids. rewrite !map_app. cbn [map]. now rewrite A, B, C. Qed.

Lemma same_ids_in : forall l l' a', same_ids l l' -> In a' l' -> exists a, In a l /\ same_id a a'.
Proof.
  intros l l' a' S H. apply (in_map (fun a => (al_type a, al_handle a, al_gran a))) in H. rewrite S in H. apply in_map_iff in H.
  destruct H as (a & E & Ha). exists a. split; [exact Ha|]. injection E as E1 E2 E3. repeat split; congruence.
Qed.
Lemma same_ids_back : forall l l' a, same_ids l l' -> In a l -> exists a', In a' l' /\ same_id a a'.
Proof.
  intros l l' a S H. apply (in_map (fun a => (al_type a, al_handle a, al_gran a))) in H. unfold same_ids in S. rewrite <- S in H. apply in_map_iff in H.
  destruct H as (a' & E & Ha). exists a'. split; [exact Ha|]. injection E as E1 E2 E3. repeat split; congruence.
Qed.

(** Pages at an address: the map is left alone or gives exactly the whole units. *)
Lemma pages_at : forall dbg bits g a k base pages r g' a', reach dbg bits g -> word base -> pages * 4096 < two64 ->
  al_gran a = 2 ^ k -> 12 <= k -> k < 64 -> al_handle a <> 0 -> word (al_handle a) ->
  allocate_pages dbg g a (AtAddress base) pages 4096 = (r, g', a') -> r <> Panic ->
  same_id a a' /\
  (g' = g \/ exists v, gcd_step g (OpAllocate (AtAddress base) SystemMemory k (round_up (pages * 4096) (2 ^ k)) (al_handle a) None) = (Ok v, g') /\
             round_up (pages * 4096) (2 ^ k) < two64) /\
  (forall g1 v, base mod 2 ^ k = 0 -> round_up (pages * 4096) (2 ^ k) < two64 ->
     gcd_step g (OpAllocate (AtAddress base) SystemMemory k (round_up (pages * 4096) (2 ^ k)) (al_handle a) None) = (Ok v, g1) -> g' = g1).
Proof.
  intros dbg bits g a k base pages r g' a' RC WB WP Ek K1 K2 H0 HW E NP. unfold allocate_pages in E. cbv zeta in E. rewrite Ek in E.
  assert (EM : N.max (2 ^ k) 4096 = 2 ^ k) by (apply N.max_l; change 4096 with (2 ^ 12); apply N.pow_le_mono_r; lia). rewrite EM in E.
  destruct (pages_request dbg k pages K1 K2 WP) as (n & EN & ER).
  destruct (size_to_pages dbg (2 ^ k)) as [q| |]; try discriminate. cbn [bind] in EN, E. rewrite EN in E. cbn [bind] in E.
  rewrite page_shift_unit in E by exact K1. cbn [bind] in E.
  destruct (N.eqb_spec (base mod 2 ^ k) 0) as [M|M]; cbn [bind] in E.
  2: { inversion E; subst. split; [apply same_id_refl|]. split; [auto|]. intros; contradiction. }
  unfold pages_to_size, umul in E. rewrite ER in E. set (len := round_up (pages * 4096) (2 ^ k)) in *.
  assert (LE : len <= two64) by (apply round_up_small; auto).
  assert (CALL : forall len0, word len0 -> op_wf (OpAllocate (AtAddress base) SystemMemory k len0 (al_handle a) None)).
  { intros len0 Hl. cbn [op_wf]. repeat split; auto. unfold word. change two64 with 18446744073709551616. lia. }
  destruct (N.ltb_spec len two64) as [LT|GE].
  - cbn [bind] in E. destruct (gcd_step g (OpAllocate (AtAddress base) SystemMemory k len (al_handle a) None)) as [[v|e|] g2] eqn:ES.
    + assert (X : g' = g2 /\ same_id a a').
      { destruct (v =? 0); [inversion E; subst; split; [reflexivity|apply same_id_refl]|].
        destruct (notify_allocation dbg a v len) as [a2|e|] eqn:EN2; inversion E; subst; (split; [reflexivity|]); [eapply notify_same; eauto|apply same_id_refl|apply same_id_refl]. }
      destruct X as (-> & X). split; [exact X|]. split; [right; exists v; auto|]. intros g1 v1 _ _ Q. congruence.
    + inversion E; subst. split; [apply same_id_refl|]. split; [left; eapply alloc_err; eauto|]. intros g1 v1 _ _ Q. discriminate Q.
    + inversion E; subst. contradiction.
  - destruct dbg; [inversion E; subst; contradiction|]. assert (len = two64) by lia. cbn [bind] in E.
    assert (X : len mod two64 = 0) by (rewrite H; reflexivity). rewrite X in E.
    destruct (gcd_step g (OpAllocate (AtAddress base) SystemMemory k 0 (al_handle a) None)) as [[v|e|] g2] eqn:ES.
    + exfalso. destruct RC as ((nn & pp & ops & RC) & _).
      destruct (allocation_is_safe _ _ _ _ _ _ _ _ _ _ _ _ _ _ RC (CALL 0 eq_refl) ES) as (Z & _). lia.
    + inversion E; subst. split; [apply same_id_refl|]. split; [left; exact (alloc_err _ _ _ _ _ _ _ _ _ _ RC (CALL 0 eq_refl) ES)|]. intros g1 v1 _ Q _. exfalso. clear - GE Q. clearbody len. lia.
    + inversion E; subst. contradiction.
Qed.

(** ** One block *)
Definition framed (s s' : sys) : Prop :=
  same_ids (s_als s) (s_als s') /\ g_cap (s_g s') = g_cap (s_g s) /\ clen (g_blocks (s_g s')) <= clen (g_blocks (s_g s)) + 2.

Lemma framed_refl : forall s, framed s s.
Proof. intros s. repeat split. lia. Qed.

Lemma ready_reach : forall dbg bits p s, ready dbg bits p s -> reach dbg bits (s_g s).
Proof. intros dbg bits p s R. split; [exact (rd_map _ _ _ _ R)|exact (rd_some _ _ _ _ R)]. Qed.

Lemma ready_bits : forall dbg bits p s, ready dbg bits p s -> map_ok (s_g s) /\ 0 < g_max (s_g s) < two64 /\ g_max (s_g s) = 2 ^ bits.
Proof. intros dbg bits p s R. apply ready_reach in R. destruct (reach_map _ _ _ R) as (A & B & C & _). auto. Qed.

Lemma ready_next : forall dbg bits p s s', ready dbg bits p s -> reach dbg bits (s_g s') -> g_locked (s_g s') = false ->
  same_ids (s_als s) (s_als s') -> ready dbg bits p s'.
Proof.
  intros dbg bits p s s' R (R1 & R2) O S. destruct R as [_ _ _ F A D]. split; auto.
  - intros a Ha. destruct (same_ids_in _ _ _ S Ha) as (b & Hb & E1 & E2 & E3). destruct (A b Hb). rewrite E1, E2, E3. auto.
  - destruct D as (a & Ha & E). destruct (same_ids_back _ _ _ S Ha) as (b & Hb & E1 & _). exists b. split; [exact Hb|congruence].
Qed.

(** A call on the map alone. *)
Lemma direct_step : forall dbg bits p s ty base len own out s', ready dbg bits p s -> word base -> word len -> own <> 0 -> word own ->
  sys_step dbg s (SGcd (OpAllocate (AtAddress base) ty 0 len own None)) = (out, s') -> out <> Crashed ->
  ready dbg bits p s' /\ framed s s' /\
  (s_g s' = s_g s \/ took_at (s_g s) (s_g s') base len own ty) /\
  (forall st, uniform (s_g s) base len st -> ms_alloc st = false -> ms_type st = ty -> ty <> NonExistent -> ty <> Unaccepted ->
     0 < len -> base + len <= 2 ^ bits -> room (s_g s) 2 -> took_at (s_g s) (s_g s') base len own ty).
Proof.
  intros dbg bits p [g m l] ty base len own out s' R WB WL O0 OW E NC. cbn [sys_step s_g s_m s_als] in *.
  pose proof (ready_reach _ _ _ _ R) as RC. cbn [s_g] in RC. destruct (ready_bits _ _ _ _ R) as (HM & Hmax & EB). cbn [s_g] in *.
  pose proof (rd_open _ _ _ _ R) as LK. cbn [s_g] in LK.
  assert (W : op_wf (OpAllocate (AtAddress base) ty 0 len own None)) by (cbn [op_wf]; repeat split; auto).
  destruct (gcd_step g (OpAllocate (AtAddress base) ty 0 len own None)) as [r g'] eqn:ES.
  assert (NP : r <> Panic) by (intros ->; inversion E; subst; contradiction).
  assert (X : s' = Sys g' m l) by (destruct r; inversion E; reflexivity). subst s'. cbn [s_g s_als].
  destruct (allocate_frame _ _ _ _ _ _ _ _ _ HM Hmax WL WB ES NP) as (F1 & F2 & F3).
  split; [|split; [|split]].
  - eapply ready_next; [exact R| | |]; cbn [s_g s_als]; [eapply reach_step; eauto|congruence|reflexivity].
  - split; [reflexivity|]. auto.
  - destruct r as [v|e|]; [right; eapply gcd_took; eauto|left; eapply alloc_err; eauto|contradiction].
  - intros st U A T N1 N2 L0 LE RM.
    pose proof (allocate_at_succeeds g ty 0 len own None base st HM Hmax LK L0 ltac:(lia) O0 eq_refl ltac:(apply N.mod_1_r) U A T N1 N2 RM) as Q.
    rewrite ES in Q. cbn [fst] in Q. subst r. eapply gcd_took; eauto.
Qed.

Lemma with_alloc_some : forall X l ty (f : alloc -> X * alloc), (exists a, In a l /\ al_type a = ty) -> exists y, with_alloc l ty f = Some y.
Proof.
  induction l as [|b l IH]; intros ty f (a & Ha & T); [destruct Ha|]. cbn [with_alloc]. destruct (N.eqb_spec (al_type b) ty); [destruct (f b); eauto|].
  destruct Ha as [->|Ha]; [contradiction|]. destruct (IH ty f) as ([y t] & E); [eauto|]. rewrite E. eauto.
Qed.

Lemma rejected_iff : forall ty, rejected ty = false <-> allocatable ty.
Proof. intros ty. unfold rejected, allocatable. lia. Qed.

Lemma pages_step : forall dbg bits p s ty pages base out s', ready dbg bits p s -> (allocatable ty -> exists a, In a (s_als s) /\ al_type a = ty) ->
  word base -> pages * 4096 < two64 ->
  core_allocate_pages_at dbg p s ty pages base = (out, s') -> out <> Crashed ->
  let len := round_up (pages * 4096) (unit_of p ty) in
  ready dbg bits p s' /\ framed s s' /\
  (s_g s' = s_g s \/ (allocatable ty /\ took_at (s_g s) (s_g s') base len (holder p ty) SystemMemory)) /\
  (forall st, allocatable ty -> uniform (s_g s) base len st -> ms_alloc st = false -> ms_type st = SystemMemory ->
     0 < len -> base + len <= 2 ^ bits -> room (s_g s) 2 -> base mod unit_of p ty = 0 ->
     took_at (s_g s) (s_g s') base len (holder p ty) SystemMemory).
Proof.
  intros dbg bits p s ty pages base out s' R KN WB WP E NC len. unfold core_allocate_pages_at in E.
  assert (NO : forall o, (o, s) = (out, s') -> (allocatable ty -> False) ->
    ready dbg bits p s' /\ framed s s' /\
    (s_g s' = s_g s \/ (allocatable ty /\ took_at (s_g s) (s_g s') base len (holder p ty) SystemMemory)) /\
    (forall st, allocatable ty -> uniform (s_g s) base len st -> ms_alloc st = false -> ms_type st = SystemMemory ->
       0 < len -> base + len <= 2 ^ bits -> room (s_g s) 2 -> base mod unit_of p ty = 0 ->
       took_at (s_g s) (s_g s') base len (holder p ty) SystemMemory)).
  { intros o Q NA. inversion Q; subst. split; [exact R|]. split; [apply framed_refl|]. split; [auto|]. intros; exfalso; auto. }
  destruct ((ty =? 7) || (ty =? 14) || (ty =? 15)) eqn:RJ; [eapply NO; [exact E|unfold allocatable; lia]|].
  destruct (handle_for p ty) as [h|] eqn:EH.
  2: { eapply NO; [exact E|]. intros A. rewrite (allocatable_handle p ty A) in EH. discriminate. }
  pose proof (handle_holder _ _ _ EH) as ->.
  destruct (rejected ty) eqn:RJ2.
  { exfalso. unfold rejected in RJ2. unfold handle_for in EH. repeat match type of EH with (if ty =? ?n then _ else _) = _ => destruct (N.eqb_spec ty n); [subst; cbn in RJ2; discriminate|] end.
    destruct ((14 <=? ty) && (ty <=? 1879048191)) eqn:Q; [discriminate|]. lia. }
  assert (AL : allocatable ty) by (apply rejected_iff; exact RJ2). specialize (KN AL).
  assert (GC : get_or_create dbg p s ty (holder p ty) = Some s).
  { unfold get_or_create. destruct KN as (a & Ha & T). assert (Q : existsb (fun a => al_type a =? ty) (s_als s) = true) by (apply existsb_exists; exists a; split; [exact Ha|lia]). now rewrite Q. }
  rewrite GC in E. destruct s as [g m l]. cbn [sys_step s_g s_m s_als] in *. rewrite RJ2 in E.
  destruct (with_alloc_some _ l ty (fun a => let '(r, g', a') := allocate_pages dbg g a (AtAddress base) pages 4096 in ((r, g'), a')) KN) as ([[r g'] l'] & EW).
  change 0x1000 with 4096 in E. rewrite EW in E. destruct (with_alloc_spec _ _ _ _ _ _ EW) as (pre & a & post & a' & -> & ET & EF & ->). cbv beta in EF.
  destruct (allocate_pages dbg g a (AtAddress base) pages 4096) as [[r0 g0] a0] eqn:EA. inversion EF; subst r0 g0 a0.
  assert (NP : r <> Panic) by (intros ->; inversion E; subst; contradiction).
  assert (X : s' = Sys g' m (pre ++ a' :: post)) by (destruct r as [[? ?]| |]; inversion E; reflexivity). subst s'. cbn [s_g s_als]. clear E NO.
  pose proof (ready_reach _ _ _ _ R) as RC. cbn [s_g] in RC. destruct (ready_bits _ _ _ _ R) as (HM & Hmax & EB). cbn [s_g] in *.
  pose proof (rd_open _ _ _ _ R) as LK. cbn [s_g] in LK.
  assert (Ha : In a (pre ++ a :: post)) by (apply in_mid; auto).
  destruct (rd_als _ _ _ _ R a Ha) as (HH & HG). rewrite ET in HH, HG. destruct (unit_pow p ty) as (UP & US). rewrite UP in HG.
  set (k := unit_shift p ty) in *. assert (K1 : 12 <= k) by lia. assert (K2 : k < 64) by lia.
  destruct (holder_ok p ty (rd_fresh _ _ _ _ R)) as (H0 & HW). rewrite <- HH in H0, HW.
  destruct (pages_at dbg bits g a k base pages r g' a' RC WB WP HG K1 K2 H0 HW EA NP) as (SI & GO & MUST).
  unfold len in *. rewrite UP in *. set (n := round_up (pages * 4096) (2 ^ k)) in *. rewrite <- HH.
  assert (CALL : n < two64 -> op_wf (OpAllocate (AtAddress base) SystemMemory k n (al_handle a) None)).
  { intros Hn. cbn [op_wf]. repeat split; auto. unfold word. change two64 with 18446744073709551616. lia. }
  assert (FR : reach dbg bits g' /\ g_locked g' = false /\ g_cap g' = g_cap g /\ clen (g_blocks g') <= clen (g_blocks g) + 2).
  { destruct GO as [->|(v & GO & Hn)]; [repeat split; auto; try apply RC; lia|]. destruct (allocate_frame _ _ _ _ _ _ _ _ _ HM Hmax Hn WB GO ltac:(discriminate)) as (F1 & F2 & F3).
    split; [eapply reach_step; eauto; discriminate|]. split; [congruence|]. auto. }
  destruct FR as (RC' & LK' & F2 & F3). split; [|split; [|split]].
  - eapply ready_next; [exact R| | |]; cbn [s_g s_als]; auto. apply same_ids_mid. exact SI.
  - split; [cbn [s_als]; apply same_ids_mid; exact SI|]. auto.
  - destruct GO as [->|(v & GO & Hn)]; [auto|]. right. split; [exact AL|]. eapply gcd_took; eauto.
  - intros st _ U A T L0 LE RM M. assert (Hn : n < two64) by lia.
    pose proof (allocate_at_succeeds g SystemMemory k n (al_handle a) None base st HM Hmax LK L0 ltac:(lia) H0 K2 M U A T ltac:(discriminate) ltac:(discriminate) RM) as Q.
    destruct (gcd_step g (OpAllocate (AtAddress base) SystemMemory k n (al_handle a) None)) as [r1 g1] eqn:ES. cbn [fst] in Q. subst r1.
    rewrite (MUST g1 base M Hn eq_refl). eapply gcd_took; eauto.
Qed.

Lemma low_mask : forall x, negb (N.land x 0xFFF =? 0) = false <-> x mod 4096 = 0.
Proof.
  intros x. change 0xFFF with (2 ^ 12 - 1). rewrite land_mask_mod. change (2 ^ 12) with 4096. rewrite negb_false_iff, N.eqb_eq. reflexivity.
Qed.

Lemma unit_page : forall p ty x, x mod unit_of p ty = 0 -> x mod 4096 = 0.
Proof. intros p ty x H. destruct (unit_pow p ty) as (E & K). rewrite E in H. apply (gran_page (unit_shift p ty)); [lia|exact H]. Qed.

Lemma whole_pages : forall dbg x, x < two64 -> x mod 4096 = 0 -> size_to_pages dbg x = Ok (x / 4096) /\ x / 4096 * 4096 = x.
Proof.
  intros dbg x H M. assert (E : x / 4096 * 4096 = x) by (pose proof (N.div_mod x 4096 ltac:(discriminate)); lia).
  split; [|exact E]. unfold size_to_pages. rewrite uadd_small by (change two64 with (2 ^ 52 * 4096) in *; lia). cbn [bind].
  f_equal. apply exact_pages. exact M.
Qed.

Lemma descriptor_in : forall dbg bits p s base len st d, ready dbg bits p s -> uniform (s_g s) base len st -> 0 < len -> base + len <= 2 ^ bits ->
  get_memory_descriptor_for_address (s_g s) base = Ok d -> b_st d = st.
Proof.
  intros dbg bits p s base len st d R U L0 LE E. destruct (ready_bits _ _ _ _ R) as (HM & Hmax & EB).
  destruct (descriptor_at (s_g s) base HM ltac:(lia) ltac:(lia)) as (d' & D1 & _ & _ & D4). assert (d' = d) by congruence. subst d'.
  assert (X : state_at (g_blocks (s_g s)) base = Some st) by (apply U; unfold in_range; lia). congruence.
Qed.

Lemma carry_some : forall x s', carry_on x = Some s' -> exists out, x = (out, s') /\ out <> Crashed.
Proof. intros [out s0] s' H. unfold carry_on in H. cbn [fst snd] in H. exists out. destruct out; inversion H; subst; split; auto; discriminate. Qed.

Lemma round_up_ge : forall p ty x, x <= round_up x (unit_of p ty).
Proof.
  intros p ty x. destruct (unit_pow p ty) as (-> & _). pose proof (pow2_pos (unit_shift p ty)) as H. set (m := 2 ^ unit_shift p ty) in *. unfold round_up.
  pose proof (N.div_mod (x + m - 1) m ltac:(lia)). pose proof (N.mod_lt (x + m - 1) m ltac:(lia)). lia.
Qed.

Definition worked (p : platform) (h : phob) (s s' : sys) : Prop :=
  s_g s' = s_g s \/ exists b l own mt, (forall x, in_range b l x -> covers p h x) /\ (mt = MemoryMappedIo \/ 4096 <= b) /\
                      took_at (s_g s) (s_g s') b l own mt /\ rightful p h mt own.
Definition must_work (bits : N) (p : platform) (h : phob) (s s' : sys) : Prop :=
  forall st b l own, describes h b l -> nobodys (s_g s) b l st -> entitled p st h own -> b + l <= 2 ^ bits -> room (s_g s) 2 ->
    took_at (s_g s) (s_g s') b l own (ms_type st).

Lemma volume_step : forall dbg bits p s base len s', ready dbg bits p s -> word base -> word len -> process_volume dbg s base len = Some s' ->
  ready dbg bits p s' /\ framed s s' /\ worked p (PVolume base len) s s' /\ must_work bits p (PVolume base len) s s'.
Proof.
  intros dbg bits p s base len s' R WB WL E. unfold process_volume in E.
  assert (GO : carry_on (sys_step dbg s (SGcd (OpAllocate (AtAddress base) MemoryMappedIo 0 len DXE_CORE_HANDLE None))) = Some s' ->
    ready dbg bits p s' /\ framed s s' /\ worked p (PVolume base len) s s' /\ must_work bits p (PVolume base len) s s').
  { intros Q. apply carry_some in Q. destruct Q as (out & Q & NC).
    destruct (direct_step dbg bits p s MemoryMappedIo base len DXE_CORE_HANDLE out s' R WB WL ltac:(discriminate) eq_refl Q NC) as (A & B & C & D).
    split; [exact A|]. split; [exact B|]. split.
    - destruct C as [C|C]; [left; exact C|]. right. exists base, len, DXE_CORE_HANDLE, MemoryMappedIo. split; [auto|]. split; [auto|]. split; [exact C|reflexivity].
    - intros st b l own (<- & <-) (U & A1 & A2) EN LE RM. inversion EN; subst. match goal with X : ms_type st = _ |- _ => rewrite X end. apply (D st); auto; discriminate. }
  destruct (get_memory_descriptor_for_address (s_g s) base) as [d|e|] eqn:ED; [|apply GO; exact E|discriminate].
  destruct (negb (mt_eqb (ms_type (b_st d)) MemoryMappedIo) || negb (ms_image (b_st d) =? 0)) eqn:Q; [|apply GO; exact E].
  inversion E; subst s'. split; [exact R|]. split; [apply framed_refl|]. split; [left; reflexivity|].
  intros st b l own (<- & <-) (U & A1 & A2) EN LE RM. exfalso. inversion EN; subst.
  rewrite (descriptor_in _ _ _ _ _ _ _ _ R U ltac:(assumption) LE ED) in Q. rewrite A2 in Q.
  match goal with X : ms_type st = _ |- _ => rewrite X in Q end. discriminate Q.
Qed.

Lemma allocation_step : forall dbg bits p s ty base len s', ready dbg bits p s -> word base -> word len ->
  (allocatable ty -> exists a, In a (s_als s) /\ al_type a = ty) -> process_allocation dbg p s ty base len = Some s' ->
  ready dbg bits p s' /\ framed s s' /\ worked p (PAlloc ty base len) s s' /\ must_work bits p (PAlloc ty base len) s s'.
Proof.
  intros dbg bits p s ty base len s' R WB WL KN E. unfold process_allocation in E.
  assert (NO : Some s = Some s' -> (forall st own, nobodys (s_g s) base len st -> entitled p st (PAlloc ty base len) own -> base + len <= 2 ^ bits -> False) ->
    ready dbg bits p s' /\ framed s s' /\ worked p (PAlloc ty base len) s s' /\ must_work bits p (PAlloc ty base len) s s').
  { intros Q F. inversion Q; subst s'. split; [exact R|]. split; [apply framed_refl|]. split; [left; reflexivity|].
    intros st b l own (<- & <-) NB EN LE RM. exfalso. eauto. }
  destruct (N.eqb_spec ty 7) as [E7|N7].
  { apply NO; [exact E|]. intros st own _ EN _. inversion EN; subst; [match goal with X : allocatable _ |- _ => destruct X end|]; contradiction. }
  destruct (N.eqb_spec len 0) as [E0|N0]; [apply NO; [exact E|]; intros st own _ EN _; inversion EN; subst; lia|].
  destruct (N.eqb_spec base 0) as [B0|NB0]; [apply NO; [exact E|]; intros st own _ EN _; inversion EN; subst; lia|].
  destruct (negb (N.land base 0xFFF =? 0) || negb (N.land len 0xFFF =? 0)) eqn:AL.
  { apply NO; [exact E|]. intros st own _ EN _. assert (base mod 4096 = 0 /\ len mod 4096 = 0) as (X & Y) by (inversion EN; subst; [split; eapply unit_page; eauto|auto]).
    apply low_mask in X, Y. rewrite X, Y in AL. discriminate. }
  apply orb_false_iff in AL. destruct AL as (AL1 & AL2). apply low_mask in AL1, AL2.
  assert (PG : 4096 <= base) by (pose proof (N.div_mod base 4096 ltac:(discriminate)); lia).
  destruct (get_memory_descriptor_for_address (s_g s) base) as [d|e|] eqn:ED.
  2: { apply NO; [exact E|]. intros st own (U & _) EN LE. destruct (ready_bits _ _ _ _ R) as (HM & Hmax & EB).
       destruct (descriptor_at (s_g s) base HM ltac:(lia) ltac:(lia)) as (d' & D1 & _). congruence. }
  2: discriminate.
  assert (DS : forall st, nobodys (s_g s) base len st -> base + len <= 2 ^ bits -> b_st d = st).
  { intros st (U & _) LE. apply (descriptor_in dbg bits p s base len st d); auto. lia. }
  destruct ((b_base d =? base) && (b_len d =? len) && negb (ms_image (b_st d) =? 0)) eqn:DUP.
  { apply NO; [exact E|]. intros st own NB EN LE. rewrite (DS st NB LE) in DUP. destruct NB as (_ & _ & I0). rewrite I0 in DUP. cbn in DUP. rewrite andb_false_r in DUP. discriminate. }
  assert (DIRECT : ms_type (b_st d) <> SystemMemory -> ms_type (b_st d) <> NonExistent -> ms_type (b_st d) <> Unaccepted ->
     carry_on (sys_step dbg s (SGcd (OpAllocate (AtAddress base) (ms_type (b_st d)) 0 len DXE_CORE_HANDLE None))) = Some s' ->
     ready dbg bits p s' /\ framed s s' /\ worked p (PAlloc ty base len) s s' /\ must_work bits p (PAlloc ty base len) s s').
  { intros T1 T2 T3 Q. apply carry_some in Q. destruct Q as (out & Q & NC).
    destruct (direct_step dbg bits p s _ base len DXE_CORE_HANDLE out s' R WB WL ltac:(discriminate) eq_refl Q NC) as (A & B & C & D).
    split; [exact A|]. split; [exact B|]. split.
    - destruct C as [C|C]; [left; exact C|]. right. exists base, len, DXE_CORE_HANDLE, (ms_type (b_st d)). split; [|split; [right; exact PG|split; [exact C|]]].
      + intros x X. cbn [covers]. pose proof (round_up_ge p ty len). unfold in_range in *. lia.
      + cbn [rightful]. destruct (ms_type (b_st d)); try reflexivity. contradiction.
    - intros st b l own (<- & <-) NB EN LE RM. pose proof (DS st NB LE) as <-. destruct NB as (U & A1 & A2).
      inversion EN; subst; [contradiction|]. apply (D (b_st d)); auto. }
  assert (NONE : Some s = Some s' -> ms_type (b_st d) = NonExistent \/ ms_type (b_st d) = Unaccepted ->
     ready dbg bits p s' /\ framed s s' /\ worked p (PAlloc ty base len) s s' /\ must_work bits p (PAlloc ty base len) s s').
  { intros Q T. apply NO; [exact Q|]. intros st own NB EN LE. rewrite (DS st NB LE) in T. inversion EN; subst; destruct T; congruence. }
  destruct (ms_type (b_st d)) eqn:MT; try (apply DIRECT; [discriminate|discriminate|discriminate|exact E]); try (apply NONE; [exact E|auto]).
  clear DIRECT NONE NO. destruct (whole_pages dbg len WL AL2) as (SP & SM). rewrite SP in E. apply carry_some in E. destruct E as (out & E & NC).
  destruct (pages_step dbg bits p s ty (len / 4096) base out s' R KN WB ltac:(rewrite SM; exact WL) E NC) as (A & B & C & D). rewrite SM in C, D.
  split; [exact A|]. split; [exact B|]. split.
  - destruct C as [C|(C1 & C)]; [left; exact C|]. right. exists base, (round_up len (unit_of p ty)), (holder p ty), SystemMemory.
    split; [auto|]. split; [right; exact PG|]. split; [exact C|reflexivity].
  - intros st b l own (<- & <-) NB EN LE RM. pose proof (DS st NB LE) as <-. destruct NB as (U & A1 & A2). rewrite MT.
    inversion EN; subst; [|congruence]. assert (RU : round_up len (unit_of p ty) = len).
    { apply round_up_exact; [destruct (unit_pow p ty) as (-> & _); apply pow2_pos|assumption]. }
    rewrite RU in D. apply (D (b_st d)); auto.
Qed.

Lemma one_step : forall dbg bits p s h s', ready dbg bits p s -> phob_wf h -> types_known s [h] -> process_one dbg p s h = Some s' ->
  ready dbg bits p s' /\ framed s s' /\ worked p h s s' /\ must_work bits p h s s'.
Proof.
  intros dbg bits p s h s' R W KN E. destruct h as [ty b l|b l|]; cbn [process_one phob_wf] in *.
  - apply (allocation_step dbg bits p s ty b l s'); try tauto. intros A. apply (KN ty b l); [left; reflexivity|exact A].
  - apply (volume_step dbg bits p s b l s'); tauto.
  - inversion E; subst. split; [exact R|]. split; [apply framed_refl|]. split; [left; reflexivity|]. intros st b l own D. destruct D.
Qed.

(** Page zero. *)
Lemma page_zero_step : forall dbg bits p s s', ready dbg bits p s -> take_page_zero dbg p s = Some s' ->
  ready dbg bits p s' /\ framed s s' /\ (s_g s' = s_g s \/ took_at (s_g s) (s_g s') 0 4096 6 SystemMemory) /\
  (forall st, uniform (s_g s) 0 4096 st -> ms_alloc st = false -> ms_type st = SystemMemory -> 4096 <= 2 ^ bits -> room (s_g s) 2 ->
     took_at (s_g s) (s_g s') 0 4096 6 SystemMemory).
Proof.
  intros dbg bits p s s' R E. unfold take_page_zero in E.
  assert (U4 : unit_of p 4 = 4096) by (unfold unit_of; destruct (p_aarch64 p); reflexivity).
  assert (NO : Some s = Some s' -> (forall st, uniform (s_g s) 0 4096 st -> ms_type st = SystemMemory -> 4096 <= 2 ^ bits -> False) ->
    ready dbg bits p s' /\ framed s s' /\ (s_g s' = s_g s \/ took_at (s_g s) (s_g s') 0 4096 6 SystemMemory) /\
    (forall st, uniform (s_g s) 0 4096 st -> ms_alloc st = false -> ms_type st = SystemMemory -> 4096 <= 2 ^ bits -> room (s_g s) 2 ->
       took_at (s_g s) (s_g s') 0 4096 6 SystemMemory)).
  { intros Q F. inversion Q; subst. split; [exact R|]. split; [apply framed_refl|]. split; [auto|]. intros; exfalso; eauto. }
  destruct (get_memory_descriptor_for_address (s_g s) 0) as [d|e|] eqn:ED; [| |discriminate].
  2: { apply NO; [exact E|]. intros st U T LE. destruct (ready_bits _ _ _ _ R) as (HM & Hmax & EB).
       destruct (descriptor_at (s_g s) 0 HM ltac:(lia) ltac:(lia)) as (d' & D1 & _). congruence. }
  assert (DS : forall st, uniform (s_g s) 0 4096 st -> 4096 <= 2 ^ bits -> b_st d = st).
  { intros st U LE. apply (descriptor_in dbg bits p s 0 4096 st d); auto. lia. }
  destruct (ms_type (b_st d)) eqn:MT; try (apply NO; [exact E|]; intros st U T LE; rewrite (DS st U LE) in MT; congruence).
  clear NO. apply carry_some in E. destruct E as (out & E & NC).
  destruct (pages_step dbg bits p s 4 1 0 out s' R (fun _ => rd_data _ _ _ _ R) eq_refl eq_refl E NC) as (A & B & C & D).
  rewrite U4 in C, D. change (round_up (1 * 4096) 4096) with 4096 in C, D. change (holder p 4) with 6 in C, D.
  split; [exact A|]. split; [exact B|]. split; [destruct C as [C|(_ & C)]; auto|].
  intros st U A1 T LE RM. apply (D st); auto; try lia. split; [discriminate|lia].
Qed.
