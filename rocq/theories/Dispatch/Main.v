(** A pass of the dispatcher keeps the invariant. *)
From Coq Require Import Permutation.
From Verif Require Import Base.Prelude Base.Bytes Depex.Model Depex.Spec Depex.Proofs Dispatch.Model Dispatch.Spec Dispatch.Proofs.
Local Open Scope nat_scope.

(** Permutations of the same pieces. *)
Lemma perm_end {A} : forall l r : list A, Permutation (l ++ []) (r ++ []) -> Permutation l r.
Proof. intros l r. now rewrite !app_nil_r. Qed.
Lemma perm_front {A} : forall a l r r' : list A, Permutation r (a ++ r') -> Permutation l r' -> Permutation (a ++ l) r.
Proof. intros a l r r' H1 H2. now rewrite H1, H2. Qed.
Lemma perm_skip_to {A} : forall a b x x' : list A, Permutation x (a ++ x') -> Permutation (b ++ x) (a ++ b ++ x').
Proof. intros a b x x' H. rewrite H. apply Permutation_app_swap_app. Qed.
Lemma cons_single {A} : forall (x : A) l, x :: l = [x] ++ l. Proof. reflexivity. Qed.
Ltac singles := repeat match goal with |- context [?x :: ?l] => lazymatch l with [] => fail | _ => rewrite (cons_single x l) end end.
Ltac perm_find := first [apply Permutation_refl | apply perm_skip_to; perm_find].
Ltac perm_go := lazymatch goal with |- Permutation [] [] => constructor | |- Permutation (_ ++ _) _ => eapply perm_front; [perm_find|perm_go] end.
Ltac perm := apply perm_end; singles; rewrite <- ?app_assoc; cbn [app]; singles; rewrite <- ?app_assoc; perm_go.

Definition all_of (m : list (bytes * list driver)) : list driver := concat (map snd m).
Lemma pool_eq : forall w, pool w = w_pending w ++ all_of (w_before w) ++ all_of (w_after w).
Proof. reflexivity. Qed.

(** ** The two maps *)
Lemma push_assoc_perm : forall m g d, Permutation (all_of (push_assoc m g d)) (d :: all_of m).
Proof.
  induction m as [|[g' l] m IH]; intros g d; cbn [push_assoc]; [reflexivity|]. destruct (bytes_eqb g g'); unfold all_of in *; cbn [map snd concat].
  - rewrite <- app_assoc. cbn [app]. symmetry. apply Permutation_middle.
  - rewrite (IH g d). symmetry. apply Permutation_middle.
Qed.
Lemma push_before_ok : forall m g d, before_ok m -> assoc_of d = Some (ABefore g) -> before_ok (push_assoc m g d).
Proof.
  induction m as [|[g' l] m IH]; intros g d B A; cbn [push_assoc].
  - constructor; [|constructor]. cbn. constructor; [exact A|constructor].
  - inversion B as [|? ? B1 B2]; subst. destruct (bytes_eqb g g') eqn:E.
    + apply bytes_eqb_eq in E. subst g'. constructor; [|exact B2]. cbn [fst snd] in *. apply Forall_app. split; [exact B1|]. constructor; [exact A|constructor].
    + constructor; [exact B1|]. now apply IH.
Qed.
Lemma push_after_ok : forall m g d, after_ok m -> assoc_of d = Some (AAfter g) -> after_ok (push_assoc m g d).
Proof.
  induction m as [|[g' l] m IH]; intros g d B A; cbn [push_assoc].
  - constructor; [|constructor]. cbn. constructor; [exact A|constructor].
  - inversion B as [|? ? B1 B2]; subst. destruct (bytes_eqb g g') eqn:E.
    + apply bytes_eqb_eq in E. subst g'. constructor; [|exact B2]. cbn [fst snd] in *. apply Forall_app. split; [exact B1|]. constructor; [exact A|constructor].
    + constructor; [exact B1|]. now apply IH.
Qed.
Lemma take_assoc_perm : forall m g x m', take_assoc m g = (x, m') -> Permutation (all_of m) (x ++ all_of m').
Proof.
  induction m as [|[g' l] m IH]; intros g x m' H; cbn [take_assoc] in H; [injection H as <- <-; reflexivity|].
  destruct (take_assoc m g) as (y, r) eqn:T. specialize (IH g y r T). unfold all_of in *. cbn [map snd concat].
  destruct (bytes_eqb g g'); injection H as <- <-; rewrite IH; cbn [map snd concat]; perm.
Qed.
Lemma take_before_ok : forall m g x m', take_assoc m g = (x, m') -> before_ok m -> before_ok m' /\ Forall (fun d => assoc_of d = Some (ABefore g)) x.
Proof.
  induction m as [|[g' l] m IH]; intros g x m' H B; cbn [take_assoc] in H; [injection H as <- <-; split; constructor|]. inversion B as [|? ? B1 B2]; subst.
  destruct (take_assoc m g) as (y, r) eqn:T. destruct (IH g y r T B2) as (X & Y).
  destruct (bytes_eqb g g') eqn:E; injection H as <- <-; [apply bytes_eqb_eq in E; subst; split; [exact X|apply Forall_app; split; assumption]|]. split; [constructor; assumption|exact Y].
Qed.
Lemma take_after_ok : forall m g x m', take_assoc m g = (x, m') -> after_ok m -> after_ok m' /\ Forall (fun d => assoc_of d = Some (AAfter g)) x.
Proof.
  induction m as [|[g' l] m IH]; intros g x m' H B; cbn [take_assoc] in H; [injection H as <- <-; split; constructor|]. inversion B as [|? ? B1 B2]; subst.
  destruct (take_assoc m g) as (y, r) eqn:T. destruct (IH g y r T B2) as (X & Y).
  destruct (bytes_eqb g g') eqn:E; injection H as <- <-; [apply bytes_eqb_eq in E; subst; split; [exact X|apply Forall_app; split; assumption]|]. split; [constructor; assumption|exact Y].
Qed.
(** Nothing is left under a key that was taken. *)
Lemma take_gone : forall m g x m', take_assoc m g = (x, m') -> forall h, In h (map fst m') -> In h (map fst m) /\ h <> g.
Proof.
  induction m as [|[g' l] m IH]; intros g x m' H h IN; cbn [take_assoc] in H; [injection H as <- <-; destruct IN|].
  destruct (take_assoc m g) as (y, r) eqn:T. destruct (bytes_eqb g g') eqn:E; injection H as <- <-.
  - destruct (IH g y r T h IN). split; [now right|assumption].
  - destruct IN as [<-|IN]; [split; [now left|]|destruct (IH g y r T h IN); split; [now right|assumption]]. cbn [fst]. intros ->. rewrite (proj2 (bytes_eqb_eq g g) eq_refl) in E. discriminate.
Qed.

(** ** Sorting out *)
Lemma evaluate_id : forall ps arch d, let d' := snd (evaluate ps arch d) in d_id d' = d_id d /\ d_fv d' = d_fv d /\ d_file d' = d_file d /\ d_image d' = d_image d /\ d_status d' = d_status d.
Proof. intros ps arch d. unfold evaluate. destruct (d_depex d) as [e|]; [destruct (eval ps e)|]; cbn; repeat split. Qed.

Lemma sort_out_ok : forall ps arch cands ready pend bef aft ready' pend' bef' aft',
  sort_out ps arch cands ready pend bef aft = (ready', pend', bef', aft') -> before_ok bef -> after_ok aft ->
  Permutation (ready' ++ pend' ++ all_of bef' ++ all_of aft') (map (fun c => snd (evaluate ps arch c)) cands ++ ready ++ pend ++ all_of bef ++ all_of aft) /\
  before_ok bef' /\ after_ok aft' /\ Forall (fun d => In d ready \/ exists c, In c cands /\ evaluate ps arch c = (true, d)) ready'.
Proof.
  intros ps arch. induction cands as [|c cands IH]; intros ready pend bef aft ready' pend' bef' aft' H B A; cbn [sort_out] in H.
  - injection H as <- <- <- <-. split; [reflexivity|]. split; [exact B|]. split; [exact A|]. apply Forall_forall. auto.
  - destruct (evaluate ps arch c) as (ok, c') eqn:EV. cbn [map snd].
    assert (W : forall r0, Forall (fun d => In d r0 \/ exists c0, In c0 cands /\ evaluate ps arch c0 = (true, d)) ready' -> (forall d, In d r0 -> In d ready \/ (d = c' /\ ok = true)) ->
      Forall (fun d => In d ready \/ exists c0, In c0 (c :: cands) /\ evaluate ps arch c0 = (true, d)) ready').
    { intros r0 F S. eapply Forall_impl; [|exact F]. intros d [X|(c0 & X & Y)].
      - destruct (S d X) as [Z|(-> & ->)]; [now left|right]. exists c. split; [now left|exact EV].
      - right. exists c0. split; [now right|exact Y]. }
    destruct ok.
    + destruct (IH _ _ _ _ _ _ _ _ H B A) as (P & B' & A' & F). split; [|split; [exact B'|]; split; [exact A'|]].
      * rewrite P. cbn [app]. rewrite EV. cbn [snd]. perm.
      * apply (W _ F). intros d X. apply in_app_or in X. destruct X as [X|[->|[]]]; auto.
    + fold (assoc_of c') in H. destruct (assoc_of c') as [[g|g]|] eqn:AS.
      * destruct (IH _ _ _ _ _ _ _ _ H (push_before_ok bef g c' B AS) A) as (P & B' & A' & F). split; [|split; [exact B'|]; split; [exact A'|]; apply (W _ F); auto].
        rewrite P, (push_assoc_perm bef g c'). rewrite EV. cbn [snd]. perm.
      * destruct (IH _ _ _ _ _ _ _ _ H B (push_after_ok aft g c' A AS)) as (P & B' & A' & F). split; [|split; [exact B'|]; split; [exact A'|]; apply (W _ F); auto].
        rewrite P, (push_assoc_perm aft g c'). rewrite EV. cbn [snd]. perm.
      * destruct (IH _ _ _ _ _ _ _ _ H B A) as (P & B' & A' & F). split; [|split; [exact B'|]; split; [exact A'|]; apply (W _ F); auto].
        rewrite P. rewrite EV. cbn [snd]. perm.
Qed.

(** ** Lining up *)
Record dgroup := DGroup { dg_before : list driver; dg_middle : driver; dg_after : list driver }.
Definition dmembers (g : dgroup) : list driver := dg_before g ++ dg_middle g :: dg_after g.
Definition dgroup_ok (g : dgroup) : Prop :=
  Forall (fun d => assoc_of d = Some (ABefore (d_file (dg_middle g)))) (dg_before g) /\ Forall (fun d => assoc_of d = Some (AAfter (d_file (dg_middle g)))) (dg_after g).

Lemma line_up_ok : forall ready bef aft s bef' aft', line_up ready bef aft = (s, bef', aft') -> before_ok bef -> after_ok aft ->
  Permutation (s ++ all_of bef' ++ all_of aft') (ready ++ all_of bef ++ all_of aft) /\ before_ok bef' /\ after_ok aft' /\
  exists gs, s = concat (map dmembers gs) /\ map dg_middle gs = ready /\ Forall dgroup_ok gs.
Proof.
  induction ready as [|d ready IH]; intros bef aft s bef' aft' H B A; cbn [line_up] in H.
  - injection H as <- <- <-. split; [reflexivity|]. split; [exact B|]. split; [exact A|]. exists []. repeat split. constructor.
  - destruct (take_assoc bef (d_file d)) as (b, bef1) eqn:T1. destruct (take_assoc aft (d_file d)) as (a, aft1) eqn:T2.
    destruct (line_up ready bef1 aft1) as ((r, bef2), aft2) eqn:L. injection H as <- <- <-.
    destruct (take_before_ok _ _ _ _ T1 B) as (B1 & FB). destruct (take_after_ok _ _ _ _ T2 A) as (A1 & FA).
    destruct (IH _ _ _ _ _ L B1 A1) as (P & B2 & A2 & gs & E1 & E2 & E3). split; [|split; [exact B2|]; split; [exact A2|]].
    + rewrite (take_assoc_perm _ _ _ _ T1), (take_assoc_perm _ _ _ _ T2).
      transitivity (b ++ [d] ++ a ++ (r ++ all_of bef2 ++ all_of aft2)); [perm|]. rewrite P. perm.
    + exists (DGroup b d a :: gs). split; [cbn [map concat]; rewrite E1; unfold dmembers at 2; cbn [dg_before dg_middle dg_after]; rewrite <- app_assoc; reflexivity|]. split; [cbn [map dg_middle]; now rewrite E2|].
      constructor; [split; assumption|exact E3].
Qed.

(** Lining up leaves nothing under the name of a driver that is ready. *)
Lemma line_up_gone : forall ready bef aft s bef' aft', line_up ready bef aft = (s, bef', aft') ->
  (forall h, In h (map fst bef') -> In h (map fst bef) /\ ~ In h (map d_file ready)) /\ (forall h, In h (map fst aft') -> In h (map fst aft) /\ ~ In h (map d_file ready)).
Proof.
  induction ready as [|d ready IH]; intros bef aft s bef' aft' H; cbn [line_up] in H.
  - injection H as <- <- <-. split; intros h X; split; auto.
  - destruct (take_assoc bef (d_file d)) as (b, bef1) eqn:T1. destruct (take_assoc aft (d_file d)) as (a, aft1) eqn:T2.
    destruct (line_up ready bef1 aft1) as ((r, bef2), aft2) eqn:L. injection H as <- <- <-. destruct (IH _ _ _ _ _ L) as (P & Q). cbn [map].
    split; intros h X.
    + destruct (P h X) as (P1 & P2). destruct (take_gone _ _ _ _ T1 h P1). split; [assumption|]. intros [Y|Y]; congruence.
    + destruct (Q h X) as (P1 & P2). destruct (take_gone _ _ _ _ T2 h P1). split; [assumption|]. intros [Y|Y]; congruence.
Qed.

(** What is left of pass [p]. *)
Definition active (p : nat) (rest : list driver) (w : world) : Prop :=
  p < w_pass w /\ exists gs, tried p (w_events w) ++ ids rest = concat (map members gs) /\ Forall (group_ok (w_events w) p) gs.
Lemma active_ext : forall p rest w w', active p rest w -> ext (S p) w w' -> active p rest w'.
Proof.
  intros p rest w w' (L & gs & E & F) (I & PL & T). split; [lia|]. exists gs. rewrite (proj1 (T p ltac:(lia))). split; [exact E|]. eapply Forall_impl; [|exact F]. intros g. apply group_ok_mono, I.
Qed.

Lemma tried_none : forall p w frame, Inv frame w -> w_pass w <= p -> tried p (w_events w) = [].
Proof.
  intros p w frame I L. pose proof (i_passes _ _ I) as F. unfold tried. induction (w_events w) as [|e evs IH]; [reflexivity|]. inversion F; subst.
  cbn [rev]. rewrite flat_map_app, IH by assumption. cbn [flat_map app]. destruct e; try reflexivity. destruct (Nat.eqb_spec p0 p); [lia|reflexivity].
Qed.

Lemma found_unique : forall evs, NoDup (found_ids evs) -> forall id fv file dx fv' file' dx', In (EvFound id fv file dx) evs -> In (EvFound id fv' file' dx') evs -> fv = fv' /\ file = file' /\ dx = dx'.
Proof.
  induction evs as [|e0 l IHl]; intros ND id fv file dx fv' file' dx' G F; [destruct G|].
  change (found_ids (e0 :: l)) with ((match e0 with EvFound i _ _ _ => [i] | _ => [] end) ++ found_ids l) in ND.
  assert (NI : forall a b c, In (EvFound id a b c) l -> In id (found_ids l)).
  { intros a b c Y. unfold found_ids. apply in_flat_map. eexists. split; [exact Y|]. now left. }
  assert (NO : forall a b c, e0 = EvFound id a b c -> ~ In id (found_ids l)) by (intros a b c ->; now inversion ND).
  destruct G as [->|G].
  - destruct F as [F|F]; [injection F as -> -> ->; auto|]. destruct (NO _ _ _ eq_refl (NI _ _ _ F)).
  - destruct F as [->|F]; [destruct (NO _ _ _ eq_refl (NI _ _ _ G))|]. apply (IHl (nodup_app_r _ _ _ ND) _ _ _ _ _ _ _ G F).
Qed.

Lemma plan_ok : forall frame w s w', Inv frame w -> plan w = (s, w') ->
  Inv (s ++ frame) w' /\ ext (w_pass w) w w' /\ (kept frame w -> kept (s ++ frame) w') /\ active (w_pass w) s w'.
Proof.
  intros frame w s w' I H. unfold plan in H. set (ps := w_protocols w) in *.
  set (arch := if w_arch w then true else fst (eval ps (depex_from ALL_ARCH_DEPEX))) in *.
  destruct (sort_out ps arch (w_pending w) [] [] (w_before w) (w_after w)) as (((ready, pend), bef), aft) eqn:SO.
  destruct (line_up ready bef aft) as ((s0, bef'), aft') eqn:LU. injection H as <- <-.
  set (p := w_pass w) in *. set (evs := w_events w) in *. set (e := EvPass p ps).
  destruct (sort_out_ok _ _ _ _ _ _ _ _ _ _ _ SO (i_before _ _ I) (i_after _ _ I)) as (P1 & B1 & A1 & RD).
  destruct (line_up_ok _ _ _ _ _ _ LU B1 A1) as (P2 & B2 & A2 & gs & SE & MID & GO).
  set (w' := World (w_executing w) arch pend (w_images w) bef' aft' (w_processed w) ps (e :: evs) (w_next w) (S p)).
  set (ev := fun c => snd (evaluate ps arch c)) in *.
  assert (P : Permutation (pool w' ++ s0 ++ frame) (map ev (w_pending w) ++ all_of (w_before w) ++ all_of (w_after w) ++ frame)).
  { rewrite pool_eq. cbn [w' w_pending w_before w_after]. cbn [app] in P1.
    transitivity (pend ++ (s0 ++ all_of bef' ++ all_of aft') ++ frame).
    - perm.
    - rewrite P2. transitivity ((ready ++ pend ++ all_of bef ++ all_of aft) ++ frame); [perm|]. rewrite P1. perm. }
  assert (SN : seen (e :: evs) ps) by (exists p; now left).
  assert (EVT : forall c, tracked evs c -> tracked (e :: evs) (ev c)).
  { intros c (dx & T1 & T2). unfold ev. destruct (evaluate_id ps arch c) as (Q1 & Q2 & Q3 & _ & _). exists dx. rewrite Q1, Q2, Q3. split; [now right|].
    unfold evaluate. destruct (d_depex c) as [x|] eqn:DX.
    - destruct dx as [b|]; [|destruct T2]. destruct (eval ps x) as (r, x') eqn:EX. cbn [snd d_depex evolved] in *. replace x' with (snd (eval ps x)) by (rewrite EX; reflexivity).
      apply ev_eval; [|exact SN]. eapply evolves_mono; [apply incl_cons_r|exact T2].
    - cbn [snd]. rewrite DX. destruct dx; [destruct T2|exact Logic.I]. }
  assert (EVS : forall c, secure evs c -> secure (e :: evs) (ev c)).
  { intros c S. unfold secure, ev. destruct (evaluate_id ps arch c) as (Q1 & Q2 & Q3 & Q4 & Q5). rewrite Q1, Q2, Q3, Q4, Q5. apply (secure_mono evs); [apply incl_cons_r|exact S]. }
  assert (IDS : map d_id (map ev (w_pending w)) = map d_id (w_pending w)).
  { rewrite map_map. apply map_ext. intros c. unfold ev. apply (evaluate_id ps arch c). }
  assert (PID : Permutation (ids (pool w' ++ s0 ++ frame)) (ids (pool w ++ frame))).
  { unfold ids. rewrite (Permutation_map d_id P). rewrite pool_eq, <- !app_assoc, !map_app, IDS. reflexivity. }
  assert (KEYS : keys (map ev (w_pending w)) = keys (w_pending w)).
  { unfold keys. rewrite map_map. apply map_ext. intros c. unfold ev. destruct (evaluate_id ps arch c) as (Q1 & _ & _ & Q4 & _). now rewrite Q1, Q4. }
  assert (PKY : Permutation (keys (pool w' ++ s0 ++ frame)) (keys (pool w ++ frame))).
  { unfold keys. rewrite (Permutation_map _ P). rewrite pool_eq, <- !app_assoc, !map_app. fold (keys (map ev (w_pending w))). rewrite KEYS. reflexivity. }
  assert (TRK : Forall (tracked (e :: evs)) (pool w' ++ s0 ++ frame)).
  { eapply Permutation_Forall; [symmetry; exact P|]. pose proof (i_tracked _ _ I) as T. rewrite pool_eq in T. rewrite !Forall_app in T |- *. destruct T as ((T1 & T2 & T3) & T4).
    split; [|split; [|split]]; try (eapply Forall_impl; [|eassumption]; intros x; apply tracked_mono, incl_cons_r).
    apply Forall_map. eapply Forall_impl; [|exact T1]. exact EVT. }
  assert (ST : started (e :: evs) = started evs) by reflexivity.
  assert (FO : found_ids (e :: evs) = found_ids evs) by reflexivity.
  assert (TR : forall q, tried q (e :: evs) = tried q evs) by (intros q; rewrite tried_cons; apply app_nil_r).
  assert (SI : forall q, started_in q (e :: evs) = started_in q evs) by (intros q; rewrite started_in_cons; apply app_nil_r).
  assert (ARCH : arch = true -> exists q ps0, q < S p /\ In (EvPass q ps0) (e :: evs) /\ incl arch_protocols ps0).
  { intros AT. unfold arch in AT. destruct (w_arch w) eqn:WA.
    - destruct (i_arch _ _ I WA) as (q & ps0 & X1 & X2 & X3). exists q, ps0. split; [fold p in X1; lia|]. split; [now right|exact X3].
    - exists p, ps. split; [lia|]. split; [now left|]. now apply arch_depex. }
  assert (ACT : active p s0 w').
  { split; [cbn; lia|]. cbn [w_events w']. rewrite TR. assert (TN : tried p evs = []) by (apply (tried_none p w frame I); lia). rewrite TN. cbn [app].
    assert (TS : Forall (tracked (e :: evs)) s0) by (rewrite !Forall_app in TRK; tauto).
    exists (map (fun g => Group (ids (dg_before g)) (d_id (dg_middle g)) (ids (dg_after g))) gs). split.
    - unfold ids. rewrite SE, map_map, concat_map, map_map. f_equal. apply map_ext. intros g. unfold members, dmembers. cbn [g_before g_middle g_after]. rewrite map_app. reflexivity.
    - apply Forall_map. rewrite Forall_forall in TS. rewrite Forall_forall in GO. rewrite Forall_forall in RD. apply Forall_forall. intros g G.
      assert (INS : forall d, In d (dmembers g) -> In d s0) by (intros d D; rewrite SE; apply in_concat; exists (dmembers g); split; [now apply in_map|exact D]).
      set (m := dg_middle g) in *. assert (IM : In m s0) by (apply INS; unfold dmembers; apply in_or_app; right; now left).
      destruct (TS m IM) as (dx & F1 & F2). exists (d_fv m), (d_file m), dx. cbn [g_middle g_before g_after]. fold m. split; [exact F1|]. split.
      + intros dep S. assert (MR : In m ready) by (rewrite <- MID; now apply in_map). destruct (RD m MR) as [[]|(c & C1 & C2)].
        unfold evaluate in C2. destruct (d_depex c) as [x|] eqn:DX.
        * destruct (eval ps x) as (r, x') eqn:EX. injection C2 as -> C2.
          pose proof (i_tracked _ _ I) as T. rewrite pool_eq, !Forall_app in T. destruct T as ((T & _) & _). rewrite Forall_forall in T. destruct (T c C1) as (dx' & G1 & G2).
          rewrite DX in G2. rewrite <- C2 in F1. cbn [d_id d_fv d_file] in F1.
          assert (dx' = dx).
          { destruct F1 as [F1|F1]; [discriminate|]. pose proof (i_found _ _ I) as ND. fold evs in G1, ND. now destruct (found_unique evs ND _ _ _ _ _ _ _ G1 F1) as (_ & _ & ->). }
          subst dx'. rewrite <- C2. cbn [d_fv d_file]. eapply (true_is_met (e :: evs) p ps (d_fv c) (d_file c) dx x); [now left| |rewrite EX; reflexivity|exact S].
          eapply evolved_mono; [apply incl_cons_r|exact G2].
        * injection C2 as AT ->. assert (MN : d_depex m = None) by exact DX. rewrite MN in F2. destruct dx as [b|]; [destruct F2|]. inversion S; subst.
          cbn [met]. destruct (ARCH AT) as (q & ps0 & X1 & X2 & X3). exists q, ps0. split; [lia|]. split; assumption.
      + destruct (GO g G) as (GB & GA). fold m in GB, GA.
        split; apply Forall_forall; intros id IDI; apply in_map_iff in IDI; destruct IDI as (d & <- & D).
        * assert (DS : In d s0) by (apply INS; unfold dmembers; apply in_or_app; now left). destruct (TS d DS) as (dx' & D1 & D2). exists (d_fv d), (d_file d), dx'. split; [exact D1|].
          intros dep S. rewrite Forall_forall in GB. specialize (GB d D). unfold assoc_of in GB. destruct (d_depex d) as [x|] eqn:DX; [|discriminate].
          exact (assoc_says _ _ _ _ _ _ _ D2 GB S).
        * assert (DS : In d s0) by (apply INS; unfold dmembers; apply in_or_app; right; now right). destruct (TS d DS) as (dx' & D1 & D2). exists (d_fv d), (d_file d), dx'. split; [exact D1|].
          intros dep S. rewrite Forall_forall in GA. specialize (GA d D). unfold assoc_of in GA. destruct (d_depex d) as [x|] eqn:DX; [|discriminate].
          exact (assoc_says _ _ _ _ _ _ _ D2 GA S). }
  split; [|split; [|split; [|exact ACT]]].
  - pose proof I as [I1 I2 I3 I4 I5 I6 I7 I8 I9 I10 I11 I12]. constructor.
    + cbn [w_events w']. rewrite ST. eapply Permutation_NoDup; [|exact I1]. apply Permutation_app_tail. symmetry. exact PID.
    + exact TRK.
    + eapply Permutation_Forall; [symmetry; exact P|]. rewrite pool_eq in I3. rewrite !Forall_app in I3 |- *. destruct I3 as ((T1 & T2 & T3) & T4).
      split; [|split; [|split]]; try (eapply Forall_impl; [|eassumption]; intros x; apply secure_mono, incl_cons_r).
      apply Forall_map. eapply Forall_impl; [|exact T1]. exact EVS.
    + cbn [w_events w_next w']. rewrite ST, FO. eapply Permutation_Forall; [|exact I4]. apply Permutation_app_tail. symmetry. exact PID.
    + exact I5.
    + exact B2.
    + exact A2.
    + cbn [w_arch w_pass w_events w']. exact ARCH.
    + cbn [w_events w_pass w']. constructor; [change (p < S p); lia|]. eapply Forall_impl; [|exact I9]. intros [ | | | | | | | | ]; cbn; auto; fold p; lia.
    + cbn [w_events w']. intros q id [X|X]; [discriminate|]. destruct (I10 q id X) as (J1 & J2). rewrite TR. split; [exact J1|]. eapply cleared_mono; [apply incl_cons_r|exact J2].
    + cbn [w_events w_pass w']. intros q Q. destruct (Nat.eq_dec q p) as [->|NE].
      * destruct ACT as (_ & gs' & E' & F'). exists gs'. split; [|exact F']. exists (ids s0). symmetry. exact E'.
      * destruct (I11 q) as (gs' & G1 & G2); [subst p; lia|]. exists gs'. rewrite TR. split; [exact G1|]. eapply Forall_impl; [|exact G2]. intros g. apply group_ok_mono, incl_cons_r.
    + intros q. cbn [w_events w']. rewrite TR, SI. apply I12.
  - split; [apply incl_cons_r|]. split; [cbn; fold p; lia|]. intros q _. split; [apply TR|apply SI].
  - intros K id [X|X]; [discriminate|]. cbn [w_events w']. rewrite ST. destruct (K id X) as [Y|Y]; [left|now right]. eapply Permutation_in; [symmetry; exact PKY|exact Y].
Qed.

(** ** Running a driver *)
Lemma sublist_nil_l {A} : forall b : list A, sublist [] b.
Proof. induction b; constructor; auto. Qed.
Lemma sublist_app_r {A} : forall (a b c : list A), sublist a b -> sublist a (b ++ c).
Proof. intros a b c H. induction H; cbn [app]; [apply sublist_nil_l|now constructor|now constructor]. Qed.
Lemma sublist_snoc {A} : forall (a b : list A) x, sublist a b -> sublist (a ++ [x]) (b ++ [x]).
Proof. intros a b x H. induction H; cbn [app]; [apply sub_keep, sub_nil|now apply sub_skip|now apply sub_keep]. Qed.
Lemma try_ok : forall frame w p d rest, Inv frame w -> active p (d :: rest) w -> let w' := emit w (EvTry p (d_id d)) in
  Inv frame w' /\ ext p w w' /\ (kept frame w -> kept frame w') /\ active p rest w' /\ exists front, tried p (w_events w') = front ++ [d_id d] /\ sublist (started_in p (w_events w')) front.
Proof.
  intros frame w p d rest I (L & gs & E & F) w'. set (e := EvTry p (d_id d)) in *.
  assert (TP : tried p (e :: w_events w) = tried p (w_events w) ++ [d_id d]) by (rewrite tried_cons; cbn [e]; now rewrite Nat.eqb_refl).
  assert (TQ : forall q, q <> p -> tried q (e :: w_events w) = tried q (w_events w)).
  { intros q N. rewrite tried_cons. cbn [e]. destruct (Nat.eqb_spec p q); [congruence|apply app_nil_r]. }
  assert (SI : forall q, started_in q (e :: w_events w) = started_in q (w_events w)) by (intros q; rewrite started_in_cons; apply app_nil_r).
  assert (A : active p rest w').
  { split; [exact L|]. exists gs. cbn [w' emit w_events]. rewrite TP, <- app_assoc. split; [exact E|]. eapply Forall_impl; [|exact F]. intros g. apply group_ok_mono, incl_cons_r. }
  split; [|split; [|split; [|split; [exact A|]]]].
  - destruct I as [I1 I2 I3 I4 I5 I6 I7 I8 I9 I10 I11 I12]. constructor; try assumption.
    + eapply Forall_impl; [|exact I2]. intros x. apply tracked_mono, incl_cons_r.
    + eapply Forall_impl; [|exact I3]. intros x. apply secure_mono, incl_cons_r.
    + intros X. destruct (I8 X) as (q & ps & A1 & A2 & A3). exists q, ps. split; [exact A1|]. split; [now right|exact A3].
    + constructor; [exact L|exact I9].
    + cbn [w' emit w_events]. intros q id [X|X]; [discriminate|]. destruct (I10 q id X) as (J1 & J2). split; [|eapply cleared_mono; [apply incl_cons_r|exact J2]].
      rewrite tried_cons. apply in_or_app. now left.
    + intros q Q. destruct (Nat.eq_dec q p) as [->|NE].
      * destruct A as (_ & gs' & E' & F'). exists gs'. split; [|exact F']. exists (ids rest). symmetry. exact E'.
      * destruct (I11 q Q) as (gs' & G1 & G2). exists gs'. cbn [w' emit w_events]. rewrite (TQ q NE). split; [exact G1|]. eapply Forall_impl; [|exact G2]. intros g. apply group_ok_mono, incl_cons_r.
    + cbn [w' emit w_events]. intros q. rewrite SI, tried_cons. apply sublist_app_r, I12.
  - split; [apply incl_cons_r|]. split; [apply le_n|]. intros q Q. split; [apply TQ; lia|apply SI].
  - intros K id [X|X]; [discriminate|]. exact (K id X).
  - exists (tried p (w_events w)). cbn [w' emit w_events]. rewrite TP, SI. split; [reflexivity|]. apply (i_sub _ _ I).
Qed.
Lemma start_ok : forall frame w p d, Inv (d :: frame) w -> p < w_pass w -> (exists front, tried p (w_events w) = front ++ [d_id d] /\ sublist (started_in p (w_events w)) front) -> cleared (w_events w) (d_id d) ->
  let w' := emit w (EvStart p (d_id d)) in Inv frame w' /\ ext p w w' /\ (forall rest, active p rest w -> active p rest w') /\ (kept (d :: frame) w -> kept frame w').
Proof.
  intros frame w p d I L (front & T & SF) C w'. set (e := EvStart p (d_id d)) in *.
  assert (SP : started_in p (e :: w_events w) = started_in p (w_events w) ++ [d_id d]) by (rewrite started_in_cons; cbn [e]; now rewrite Nat.eqb_refl).
  assert (SQ : forall q, q <> p -> started_in q (e :: w_events w) = started_in q (w_events w)).
  { intros q N. rewrite started_in_cons. cbn [e]. destruct (Nat.eqb_spec p q); [congruence|apply app_nil_r]. }
  assert (TR : forall q, tried q (e :: w_events w) = tried q (w_events w)) by (intros q; rewrite tried_cons; apply app_nil_r).
  assert (ST : started (w_events w') = d_id d :: started (w_events w)) by reflexivity.
  split; [|split; [|split]].
  - pose proof (inv_frame [d] frame w I) as J. pose proof (i_nodup _ _ I) as N. pose proof (i_next _ _ I) as X.
    destruct J as [I1 I2 I3 I4 I5 I6 I7 I8 I9 I10 I11 I12]. constructor; try assumption; rewrite ?ST.
    + eapply Permutation_NoDup; [|exact N]. unfold ids. change (pool w') with (pool w). rewrite !map_app. cbn [map]. perm.
    + eapply Forall_impl; [|exact I2]. intros x. apply tracked_mono, incl_cons_r.
    + eapply Forall_impl; [|exact I3]. intros x. apply secure_mono, incl_cons_r.
    + eapply Permutation_Forall; [|exact X]. unfold ids. change (pool w') with (pool w). change (found_ids (w_events w')) with (found_ids (w_events w)). rewrite !map_app. cbn [map]. perm.
    + intros Y. destruct (I8 Y) as (q & ps & A1 & A2 & A3). exists q, ps. split; [exact A1|]. split; [now right|exact A3].
    + constructor; [exact L|exact I9].
    + cbn [w' emit w_events]. intros q id [Y|Y].
      * unfold e in Y. injection Y as <- <-. rewrite TR, T. split; [apply in_or_app; right; now left|]. eapply cleared_mono; [apply incl_cons_r|exact C].
      * destruct (I10 q id Y) as (J1 & J2). rewrite TR. split; [exact J1|]. eapply cleared_mono; [apply incl_cons_r|exact J2].
    + cbn [w' emit w_events w_pass]. intros q Q. destruct (I11 q Q) as (gs & G1 & G2). exists gs. rewrite TR. split; [exact G1|]. eapply Forall_impl; [|exact G2]. intros g. apply group_ok_mono, incl_cons_r.
    + cbn [w' emit w_events]. intros q. destruct (Nat.eq_dec q p) as [->|NE]; [rewrite SP, TR, T; now apply sublist_snoc|rewrite (SQ q NE), TR; apply I12].
  - split; [apply incl_cons_r|]. split; [apply le_n|]. intros q Q. split; [apply TR|apply SQ; lia].
  - intros rest (_ & gs & E & F). split; [exact L|]. exists gs. cbn [w' emit w_events]. rewrite TR. split; [exact E|]. eapply Forall_impl; [|exact F]. intros g. apply group_ok_mono, incl_cons_r.
  - intros K id [X|X]; [discriminate|]. rewrite ST. destruct (K id X) as [Y|Y]; [|right; now right].
    unfold keys in Y. rewrite !map_app in Y. cbn [map] in Y. apply in_app_or in Y. destruct Y as [Y|[Y|Y]].
    + left. unfold keys. rewrite map_app. apply in_or_app. now left.
    + right. left. now injection Y.
    + left. unfold keys. rewrite map_app. apply in_or_app. now right.
Qed.

(** One step of pass [p]: [rest] is still to come. *)
Definition stepped {A} (p : nat) (rest frame frame' : list driver) (w : world) (r : run A) : Prop :=
  Inv frame' (snd r) /\ ext p w (snd r) /\ forall a, fst r = Done a -> active p rest (snd r) /\ (kept frame w -> kept frame' (snd r)).
Lemma stepped_acts : forall nested, nested_ok nested -> forall l p rest frame w, Inv frame w -> active p rest w -> stepped p rest frame frame w (acts nested l w).
Proof.
  intros nested NO l p rest frame w I A. destruct (acts_ok nested NO l frame (S p) w I) as (H1 & H2 & H3); [destruct A; lia|].
  split; [exact H1|]. split; [eapply ext_le; [|exact H2]; lia|]. intros a D. split; [eapply active_ext; eassumption|]. apply (H3 a D).
Qed.
Lemma stepped_then : forall A B p rest frame frame1 frame' w (r : run A) (k : A -> world -> run B), stepped p rest frame frame1 w r ->
  (forall w1, Inv frame1 w1 -> Inv frame' w1) ->
  (forall a w1, r = (Done a, w1) -> Inv frame1 w1 -> active p rest w1 -> ext p w w1 -> stepped p rest frame1 frame' w1 (k a w1)) -> stepped p rest frame frame' w (and_then r k).
Proof.
  intros A B p rest frame frame1 frame' w [[a| |] w1] k (H1 & H2 & H3) F H; cbn [and_then fst snd] in *.
  - destruct (H3 a eq_refl) as (A1 & K1). destruct (H a w1 eq_refl H1 A1 H2) as (G1 & G2 & G3). split; [exact G1|]. split; [eapply ext_trans; eassumption|].
    intros b D. destruct (G3 b D) as (A2 & K2). split; [exact A2|auto].
  - split; [now apply F|]. split; [exact H2|]. discriminate.
  - split; [now apply F|]. split; [exact H2|]. discriminate.
Qed.
Lemma stepped_from : forall A p rest frame frame1 frame' w w1 (r : run A), ext p w w1 -> (kept frame w -> kept frame1 w1) -> stepped p rest frame1 frame' w1 r -> stepped p rest frame frame' w r.
Proof.
  intros A p rest frame frame1 frame' w w1 r E K (H1 & H2 & H3). split; [exact H1|]. split; [eapply ext_trans; eassumption|]. intros a D. destruct (H3 a D) as (X & Y). split; [exact X|auto].
Qed.
Lemma stepped_done : forall A p rest frame frame' w w' (a : A), Inv frame' w' -> ext p w w' -> active p rest w' -> (kept frame w -> kept frame' w') -> stepped p rest frame frame' w (Done a, w').
Proof. intros A p rest frame frame' w w' a I E AC K. split; [exact I|]. split; [exact E|]. intros b _. split; assumption. Qed.

(** A driver not loaded can be let go. *)
Lemma let_go : forall d frame w, Inv (d :: frame) w -> d_image d = false -> kept (d :: frame) w -> kept frame w.
Proof.
  intros d frame w I D K id X. destruct (K id X) as [Y|Y]; [|now right]. left. unfold keys in *. rewrite map_app in *. cbn [map] in Y. apply in_app_or in Y. apply in_or_app.
  destruct Y as [Y|[Y|Y]]; [now left| |now right]. rewrite D in Y. discriminate.
Qed.

Section Main.
  Variables (o : oracle) (nested : world -> run (res derr unit)).
  Hypothesis NO : nested_ok nested.

  Lemma run_driver_ok : forall p d rest frame w, Inv (d :: rest ++ frame) w -> active p (d :: rest) w -> stepped p rest (d :: rest ++ frame) (rest ++ frame) w (run_driver o nested p d w).
  Proof.
    intros p d rest frame w I A. unfold run_driver. destruct (try_ok _ _ _ _ _ I A) as (I1 & E1 & K1 & A1 & T1). set (w1 := emit w (EvTry p (d_id d))) in *.
    apply (stepped_from _ p rest _ (d :: rest ++ frame) _ w w1); [exact E1|exact K1|]. clearbody w1; clear w I A E1 K1.
    assert (DROP : forall x w, Inv (x :: rest ++ frame) w -> Inv (rest ++ frame) w) by (intros x w; apply (inv_frame [x])).
    destruct (d_image d) eqn:DI.
    - cbn [and_then]. rewrite DI. pose proof (i_secure _ _ I1) as S. apply Forall_app in S. destruct S as (_ & S). inversion S as [|? ? SD _]; subst. destruct (SD DI) as (LV & [ST|(ST & TR)]); rewrite ST.
      + set (w2 := set_pending w1 (w_pending w1 ++ [d])).
        destruct (repool (d :: rest ++ frame) (rest ++ frame) w1 w2 I1) as (I2 & E2 & K2); try reflexivity; try apply I1.
        { unfold pool, w2. cbn [set_pending w_pending w_before w_after]. perm. }
        apply (stepped_from _ p rest _ (rest ++ frame) _ w1 w2); [apply E2|exact K2|]. assert (A2 : active p rest w2) by exact A1.
        eapply stepped_then; [apply (stepped_acts nested NO _ p rest _ w2 I2 A2)|auto|]. intros u w3 _ I3 A3 _. apply stepped_done; auto; try apply ext_refl.
      + assert (C : cleared (w_events w1) (d_id d)).
        { right. split; [exact LV|]. pose proof (i_tracked _ _ I1) as T. apply Forall_app in T. destruct T as (_ & T). inversion T as [|? ? (dx & TD & _) _]; subst. exists (d_fv d), (d_file d), dx. split; assumption. }
        destruct (start_ok _ _ p d I1 (proj1 A1) T1 C) as (I2 & E2 & AA & K2). set (w2 := emit w1 (EvStart p (d_id d))) in *.
        apply (stepped_from _ p rest _ (rest ++ frame) _ w1 w2); [exact E2|exact K2|]. assert (A2 : active p rest w2) by (apply AA; exact A1).
        eapply stepped_then; [apply (stepped_acts nested NO _ p rest _ w2 I2 A2)|auto|]. intros u w3 _ I3 A3 _. apply stepped_done; auto; try apply ext_refl.
    - unfold yield. destruct (acts_ok nested NO (o_notify o (w_events w1)) _ (S p) w1 I1) as (Y1 & Y2 & Y3); [destruct A1; lia|].
      destruct (acts nested (o_notify o (w_events w1)) w1) as [[u| |] w2]; cbn [and_then fst snd] in *.
      2,3: (split; [eapply DROP; exact Y1|]; split; [eapply ext_le; [|exact Y2]; lia|]; discriminate).
      assert (A2 : active p rest w2) by (eapply active_ext; eassumption).
      assert (T2 : exists front, tried p (w_events w2) = front ++ [d_id d] /\ sublist (started_in p (w_events w2)) front) by (destruct Y2 as (_ & _ & Y2); destruct (Y2 p) as (-> & ->); [lia|exact T1]).
      apply (stepped_from _ p rest _ (d :: rest ++ frame) _ w1 w2); [eapply ext_le; [|exact Y2]; lia|exact (Y3 u eq_refl)|]. clear Y2 Y3 w1 I1 A1 T1 u.
      set (r := o_load o (w_events w2)). set (w3 := emit w2 (EvLoad (d_id d) r)).
      pose proof (emit_inv _ w2 (EvLoad (d_id d) r) Y1 Logic.I) as I3. fold w3 in I3. pose proof (emit_ext (S p) w2 (EvLoad (d_id d) r) Logic.I) as E3. fold w3 in E3.
      assert (A3 : active p rest w3) by (eapply active_ext; eassumption).
      assert (E3' : ext p w2 w3) by (eapply ext_le; [|exact E3]; lia).
      assert (T3 : exists front, tried p (w_events w3) = front ++ [d_id d] /\ sublist (started_in p (w_events w3)) front) by (destruct E3 as (_ & _ & E3); destruct (E3 p) as (-> & ->); [lia|exact T2]).
      assert (KO : r <> Loaded SViolation -> kept (d :: rest ++ frame) w2 -> kept (d :: rest ++ frame) w3).
      { intros NV K id [X|X]; [injection X as _ X; congruence|]. exact (K id X). }
      change (o_load o (w_events w2)) with r. cbv zeta. clearbody r. fold w3. destruct r as [|st]; cbn [d_image d_status].
      + rewrite DI. apply stepped_done; [eapply DROP; exact I3|exact E3'|exact A3|]. intros K. apply (let_go d); [exact I3|exact DI|]. apply KO; [discriminate|exact K].
      + set (d' := Driver (d_id d) (d_fv d) (d_file d) (d_depex d) true st).
        destruct st.
        * apply stepped_done; [eapply DROP; exact I3|exact E3'|exact A3|]. intros K. apply (let_go d); [exact I3|exact DI|]. apply KO; [discriminate|exact K].
        * assert (C : cleared (w_events w3) (d_id d)) by (left; now left).
          destruct (start_ok _ _ p d I3 (proj1 A3) T3 C) as (I4 & E4 & AA & K4). set (w4 := emit w3 (EvStart p (d_id d))) in *. cbn [d_id d'].
          apply (stepped_from _ p rest _ (rest ++ frame) _ w2 w4); [eapply ext_trans; [exact E3'|apply E4]| |].
          { intros K. apply K4, KO; [discriminate|exact K]. }
          assert (A4 : active p rest w4) by (apply AA; exact A3).
          eapply stepped_then; [apply (stepped_acts nested NO _ p rest _ w4 I4 A4)|auto|]. intros u w5 _ I5 A5 _. apply stepped_done; auto; try apply ext_refl.
        * destruct (replace_frame (rest ++ frame) w3 d d' I3 eq_refl) as (I4 & _).
          { pose proof (i_tracked _ _ I3) as T. apply Forall_app in T. destruct T as (_ & T). inversion T as [|? ? (dx & TD) _]; subst. exists dx. exact TD. }
          { intros _. split; [now left|]. left. reflexivity. }
          assert (K4 : kept (d :: rest ++ frame) w2 -> kept (d' :: rest ++ frame) w3).
          { intros K id X. assert (Y : id = d_id d \/ In (EvLoad id (Loaded SViolation)) (w_events w2)) by (destruct X as [X|X]; [left; now injection X|now right]).
            clear X. destruct Y as [->|Y].
            - left. unfold keys. rewrite map_app. apply in_or_app. right. now left.
            - destruct (K id Y) as [Z|Z]; [left|now right]. unfold keys in *. rewrite map_app in *. apply in_app_or in Z. apply in_or_app. destruct Z as [Z|[Z|Z]]; [now left| |right; now right].
              right. left. cbn [d' d_id d_image] in *. congruence. }
          set (w4 := set_pending w3 (w_pending w3 ++ [d'])).
          destruct (repool (d' :: rest ++ frame) (rest ++ frame) w3 w4 I4) as (I5 & E5 & K5); try reflexivity; try apply I4.
          { unfold pool, w4. cbn [set_pending w_pending w_before w_after]. perm. }
          apply (stepped_from _ p rest _ (rest ++ frame) _ w2 w4); [eapply ext_trans; [exact E3'|apply E5]|auto|]. assert (A4 : active p rest w4) by exact A3.
          eapply stepped_then; [apply (stepped_acts nested NO _ p rest _ w4 I5 A4)|auto|]. intros u w5 _ I6 A5 _. apply stepped_done; auto; try apply ext_refl.
        * apply stepped_done; [eapply DROP; exact I3|exact E3'|exact A3|]. intros K. apply (let_go d); [exact I3|exact DI|]. apply KO; [discriminate|exact K].
  Qed.

  Lemma run_all_ok : forall p l attempted frame w, Inv (l ++ frame) w -> active p l w ->
    let r := run_all o nested p l attempted w in Inv frame (snd r) /\ ext p w (snd r) /\ (forall a, fst r = Done a -> kept (l ++ frame) w -> kept frame (snd r)).
  Proof.
    intros p. induction l as [|d l IH]; intros attempted frame w I A r.
    - split; [exact I|]. split; [apply ext_refl|]. intros a _ K. exact K.
    - unfold r. cbn [run_all]. cbn [app] in I. destruct (run_driver_ok p d l frame w I A) as (H1 & H2 & H3). destruct (run_driver o nested p d w) as [[b| |] w1]; cbn [and_then fst snd] in *.
      + destruct (H3 b eq_refl) as (A1 & K1). destruct (IH (attempted || b) frame w1 H1 A1) as (G1 & G2 & G3). split; [exact G1|]. split; [eapply ext_trans; eassumption|].
        intros a D K. apply (G3 a D). auto.
      + split; [eapply inv_frame; exact H1|]. split; [exact H2|]. discriminate.
      + split; [eapply inv_frame; exact H1|]. split; [exact H2|]. discriminate.
  Qed.

  Lemma install_sections_ok : forall n attempted frame w, Inv frame w ->
    let w' := snd (install_sections o n attempted w) in Inv frame w' /\ (forall b, ext b w w') /\ (kept frame w -> kept frame w').
  Proof.
    induction n as [|n IH]; intros attempted frame w I; cbn [install_sections]; [split; [exact I|]; split; [intros b; apply ext_refl|auto]|].
    set (ok := o_install o (w_events w)). destruct (IH (attempted || ok) frame (emit w (EvInstall ok)) (emit_inv _ _ (EvInstall ok) I Logic.I)) as (H1 & H2 & H3). split; [exact H1|].
    split; [intros b; eapply ext_trans; [apply (emit_ext b w (EvInstall ok) Logic.I)|apply H2]|]. intros K. apply H3, emit_kept; [exact Logic.I|discriminate|exact K].
  Qed.
  Lemma set_images_ok : forall frame w l, Inv frame w -> Inv frame (set_images w l) /\ (forall b, ext b w (set_images w l)) /\ (kept frame w -> kept frame (set_images w l)).
  Proof. intros frame w l I. apply same_inv; auto. Qed.
  Lemma install_images_ok : forall l attempted frame w, Inv frame w ->
    let w' := snd (install_images o l attempted w) in Inv frame w' /\ (forall b, ext b w w') /\ (kept frame w -> kept frame w').
  Proof.
    induction l as [|c l IH]; intros attempted frame w I; cbn [install_images]; [split; [exact I|]; split; [intros b; apply ext_refl|auto]|].
    destruct (match i_depex c with Some e => _ | None => _ end) as (ok, e). destruct (ok && o_auth o (w_events w)).
    - destruct (install_sections_ok (i_sections c) attempted frame w I) as (H1 & H2 & H3). destruct (install_sections o (i_sections c) attempted w) as (at', w1). cbn [snd] in *.
      destruct (IH at' frame w1 H1) as (G1 & G2 & G3). split; [exact G1|]. split; [intros b; eapply ext_trans; [apply H2|apply G2]|auto].
    - set (l1 := w_images w ++ _). destruct (set_images_ok frame w l1 I) as (H1 & H2 & H3). destruct (IH attempted frame _ H1) as (G1 & G2 & G3). split; [exact G1|].
      split; [intros b; eapply ext_trans; [apply H2|apply G2]|auto].
  Qed.

  Lemma dispatch_ok : forall frame w, Inv frame w -> holds_after frame (w_pass w) w (dispatch o nested w).
  Proof.
    intros frame w I. unfold dispatch. destruct (w_executing w); [apply holds_done; auto; apply ext_refl|].
    apply holds_then; [apply (acts_ok nested NO); auto|]. intros u w1 _ I1 (_ & L1 & _).
    destruct (plan w1) as (s, w2) eqn:PL. destruct (plan_ok _ _ _ _ I1 PL) as (I2 & E2 & K2 & A2).
    apply (holds_from _ frame (w_pass w) w1 w1); [apply ext_refl|auto|].
    destruct (acts_ok nested NO (o_notify o (w_events w2)) _ (S (w_pass w1)) w2 I2) as (Y1 & Y2 & Y3); [destruct A2; lia|]. unfold yield at 1.
    destruct (acts nested (o_notify o (w_events w2)) w2) as [[v| |] w3]; cbn [and_then fst snd] in *.
    2,3: (split; [eapply inv_frame; exact Y1|]; split; [cbn [snd]; eapply ext_trans; [eapply ext_le; [|exact E2]; lia|eapply ext_le; [|exact Y2]; lia]|discriminate]).
    assert (A3 : active (w_pass w1) s w3) by (eapply active_ext; eassumption).
    destruct (run_all_ok (w_pass w1) s false frame w3 Y1 A3) as (R1 & R2 & R3).
    assert (E3 : ext (w_pass w) w1 w3) by (eapply ext_trans; [eapply ext_le; [|exact E2]; lia|eapply ext_le; [|exact Y2]; lia]).
    destruct (run_all o nested (w_pass w1) s false w3) as [[att| |] w4]; cbn [and_then fst snd] in *.
    2,3: (split; [exact R1|]; split; [cbn [snd]; eapply ext_trans; [exact E3|eapply ext_le; [|exact R2]; lia]|discriminate]).
    assert (E4 : ext (w_pass w) w1 w4) by (eapply ext_trans; [exact E3|eapply ext_le; [|exact R2]; lia]).
    destruct (set_images_ok frame w4 [] R1) as (S1 & S2 & S3). destruct (install_images_ok (w_images w4) att frame _ S1) as (T1 & T2 & T3).
    destruct (install_images o (w_images w4) att (set_images w4 [])) as (att', w5). cbn [snd] in *.
    apply (holds_from _ frame (w_pass w) w1 w5).
    - eapply ext_trans; [exact E4|]. eapply ext_trans; [apply S2|apply T2].
    - intros K. apply T3, S3, (R3 att eq_refl), (Y3 v eq_refl), K2, K.
    - apply holds_then; [apply (acts_ok nested NO); [exact T1|]; destruct E4 as (_ & E4 & _); destruct (S2 0) as (_ & S2' & _); destruct (T2 0) as (_ & T2' & _); lia|].
      intros z w6 _ I6 _. apply holds_done; auto. apply ext_refl.
  Qed.
End Main.

Lemma core_dispatcher_ok : forall o fuel something frame w, Inv frame w -> holds_after frame (w_pass w) w (core_dispatcher o fuel something w).
Proof.
  intros o. induction fuel as [|f IH]; intros something frame w I; cbn [core_dispatcher].
  - split; [exact I|]. split; [apply ext_refl|]. discriminate.
  - destruct (w_executing w); [apply holds_done; auto; apply ext_refl|].
    apply holds_then; [apply dispatch_ok; [intros fr x J; now apply IH|exact I]|]. intros r w1 _ I1 (_ & L & _).
    destruct r as [[|]|e|].
    + destruct (IH true frame w1 I1) as (H1 & H2 & H3). split; [exact H1|]. split; [eapply ext_le; [|exact H2]; exact L|exact H3].
    + apply holds_done; auto. apply ext_refl.
    + apply holds_done; auto. apply ext_refl.
    + split; [exact I1|]. split; [apply ext_refl|]. discriminate.
Qed.

Lemma world0_ok : forall ps, Inv [] (world0 ps) /\ kept [] (world0 ps).
Proof.
  intros ps. split.
  - constructor; cbn; try constructor; try discriminate; try tauto; lia.
  - intros id [].
Qed.
