(** Proofs about the dispatcher. *)
From Coq Require Import Permutation.
From Verif Require Import Base.Prelude Base.Bytes Depex.Model Depex.Spec Depex.Proofs Dispatch.Model Dispatch.Spec.
Local Open Scope nat_scope.

Definition pool (w : world) : list driver := w_pending w ++ concat (map snd (w_before w)) ++ concat (map snd (w_after w)).
Definition ids (l : list driver) : list nat := map d_id l.

(** How a depex object may have changed since it was read. *)
Inductive evolves (evs : list event) (fv : N) (file : bytes) (e0 : list opcode) : list opcode -> Prop :=
| ev_refl : evolves evs fv file e0 e0
| ev_eval e1 ps : evolves evs fv file e0 e1 -> seen evs ps -> evolves evs fv file e0 (snd (eval ps e1))
| ev_sched e1 : evolves evs fv file e0 e1 -> In (EvSchedule fv file true) evs -> evolves evs fv file e0 (schedule e1).

Definition evolved (evs : list event) (fv : N) (file : bytes) (dx : option bytes) (e : option (list opcode)) : Prop :=
  match dx, e with
  | None, None => True
  | Some b, Some e => evolves evs fv file (depex_from b) e
  | _, _ => False
  end.
Definition tracked (evs : list event) (d : driver) : Prop :=
  exists dx, In (EvFound (d_id d) (d_fv d) (d_file d) dx) evs /\ evolved evs (d_fv d) (d_file d) dx (d_depex d).
Definition secure (evs : list event) (d : driver) : Prop :=
  d_image d = true -> In (EvLoad (d_id d) (Loaded SViolation)) evs /\
    (d_status d = SViolation \/ (d_status d = SSuccess /\ In (EvTrust (d_fv d) (d_file d) true) evs)).

Definition assoc_of (d : driver) : option assoc := match d_depex d with Some e => is_associated e | None => None end.

Definition found_ids (evs : list event) : list nat := flat_map (fun e => match e with EvFound id _ _ _ => [id] | _ => [] end) evs.

Record Inv (frame : list driver) (w : world) : Prop := {
  i_nodup : NoDup (ids (pool w ++ frame) ++ started (w_events w));
  i_tracked : Forall (tracked (w_events w)) (pool w ++ frame);
  i_secure : Forall (secure (w_events w)) (pool w ++ frame);
  i_next : Forall (fun id => id < w_next w) (ids (pool w ++ frame) ++ started (w_events w) ++ found_ids (w_events w));
  i_found : NoDup (found_ids (w_events w));
  i_before : Forall (fun gl => Forall (fun d => assoc_of d = Some (ABefore (fst gl))) (snd gl)) (w_before w);
  i_after : Forall (fun gl => Forall (fun d => assoc_of d = Some (AAfter (fst gl))) (snd gl)) (w_after w);
  i_arch : w_arch w = true -> exists q ps, q < w_pass w /\ In (EvPass q ps) (w_events w) /\ incl arch_protocols ps;
  i_passes : Forall (fun e => match e with EvPass p _ | EvTry p _ | EvStart p _ => p < w_pass w | _ => True end) (w_events w);
  i_just : forall p id, In (EvStart p id) (w_events w) -> In id (tried p (w_events w)) /\ cleared (w_events w) id;
  i_order : forall p, p < w_pass w -> exists groups, prefix (tried p (w_events w)) (concat (map members groups)) /\ Forall (group_ok (w_events w) p) groups;
  i_sub : forall p, sublist (started_in p (w_events w)) (tried p (w_events w))
}.

Definition keys (l : list driver) : list (nat * bool) := map (fun d => (d_id d, d_image d)) l.
Definition kept (frame : list driver) (w : world) : Prop :=
  forall id, In (EvLoad id (Loaded SViolation)) (w_events w) -> In (id, true) (keys (pool w ++ frame)) \/ In id (started (w_events w)).

(** What later worlds keep of earlier ones; passes below [b] are over. *)
Definition ext (b : nat) (w w' : world) : Prop :=
  incl (w_events w) (w_events w') /\ w_pass w <= w_pass w' /\ (forall q, q < b -> tried q (w_events w') = tried q (w_events w) /\ started_in q (w_events w') = started_in q (w_events w)).
Lemma ext_refl : forall b w, ext b w w.
Proof. intros b w. split; [apply incl_refl|]. split; auto. Qed.
Lemma ext_trans : forall b w1 w2 w3, ext b w1 w2 -> ext b w2 w3 -> ext b w1 w3.
Proof.
  intros b w1 w2 w3 (A1 & A2 & A3) (B1 & B2 & B3). split; [eapply incl_tran; eassumption|]. split; [lia|]. intros q L. destruct (A3 q L), (B3 q L). split; congruence.
Qed.
Lemma ext_le : forall b b' w w', b' <= b -> ext b w w' -> ext b' w w'.
Proof. intros b b' w w' L (A & B & C). split; [exact A|]. split; [exact B|]. intros q Q. apply C. lia. Qed.

(** ** Monotonicity *)
Lemma seen_mono : forall a b ps, incl a b -> seen a ps -> seen b ps.
Proof. intros a b ps I (q & H). exists q. now apply I. Qed.
Lemma evolves_mono : forall a b fv file e0 e, incl a b -> evolves a fv file e0 e -> evolves b fv file e0 e.
Proof.
  intros a b fv file e0 e I H. induction H; [constructor|eapply ev_eval; [assumption|eapply seen_mono; eassumption]|eapply ev_sched; [assumption|now apply I]].
Qed.
Lemma evolved_mono : forall a b fv file dx e, incl a b -> evolved a fv file dx e -> evolved b fv file dx e.
Proof. intros a b fv file [x|] [e|] I H; cbn in *; try exact H. eapply evolves_mono; eassumption. Qed.
Lemma tracked_mono : forall a b d, incl a b -> tracked a d -> tracked b d.
Proof. intros a b d I (dx & H1 & H2). exists dx. split; [now apply I|eapply evolved_mono; eassumption]. Qed.
Lemma secure_mono : forall a b d, incl a b -> secure a d -> secure b d.
Proof. intros a b d I H IM. destruct (H IM) as (H1 & H2). split; [now apply I|]. destruct H2 as [H2|(H2 & H3)]; [now left|right; split; [exact H2|now apply I]]. Qed.
Lemma holds_at_mono : forall a b p e, incl a b -> holds_at a p e -> holds_at b p e.
Proof.
  intros a b p e I (now_ & old & H1 & H2 & H3). exists now_, old. split; [now apply I|]. split; [|exact H3]. eapply Forall_impl; [|exact H2].
  intros ps S. eapply seen_mono; eassumption.
Qed.
Lemma met_mono : forall a b p fv file dep, incl a b -> met a p fv file dep -> met b p fv file dep.
Proof.
  intros a b p fv file dep I H. destruct dep; cbn [met] in *.
  - destruct H as (q & ps & H1 & H2 & H3). exists q, ps. split; [exact H1|]. split; [now apply I|exact H3].
  - eapply holds_at_mono; eassumption.
  - destruct H as (H1 & H2). split; [now apply I|eapply holds_at_mono; eassumption].
  - exact H.
  - exact H.
Qed.
Lemma group_ok_mono : forall a b p g, incl a b -> group_ok a p g -> group_ok b p g.
Proof.
  intros a b p g I (fv & file & dx & H1 & H2 & H3 & H4). exists fv, file, dx. split; [now apply I|]. split.
  - intros dep S. eapply met_mono; [exact I|]. now apply H2.
  - split; (eapply Forall_impl; [|eassumption]; intros id (fv' & file' & dx' & F & G); exists fv', file', dx'; split; [now apply I|exact G]).
Qed.
Lemma cleared_mono : forall a b id, incl a b -> cleared a id -> cleared b id.
Proof.
  intros a b id I [H|(H1 & fv & file & dx & H2 & H3)]; [left; now apply I|right]. split; [now apply I|]. exists fv, file, dx. split; now apply I.
Qed.

(** ** Depex objects *)
Lemma eval_head : forall ps e, is_sor (snd (eval ps e)) = is_sor e /\ is_associated (snd (eval ps e)) = is_associated e.
Proof.
  intros ps [|o e]; [split; reflexivity|]. unfold eval. cbn [eval_go].
  destruct o as [u|u|u pr| | | | | | | | |op len]; try (split; reflexivity).
  - destruct pr; [destruct (eval_go ps e _); split; reflexivity|]. destruct (guid_from_uuid u) as [g|]; [|destruct (eval_go ps e _); split; reflexivity].
    destruct (contains ps g); destruct (eval_go ps e _); split; reflexivity.
  - cbn [pop]. destruct (eval_go ps e _); split; reflexivity.
  - cbn [pop]. destruct (eval_go ps e _); split; reflexivity.
  - cbn [pop]. destruct (eval_go ps e _); split; reflexivity.
  - destruct (eval_go ps e _); split; reflexivity.
  - destruct (eval_go ps e _); split; reflexivity.
Qed.

Lemma eval_history_app : forall a b e, eval_history (a ++ b) e = eval_history b (eval_history a e).
Proof. induction a as [|x a IH]; intros b e; [reflexivity|apply IH]. Qed.

(** A depex that is not schedule-on-request only changes by evaluations. *)
Lemma evolves_plain : forall evs fv file e0 e, evolves evs fv file e0 e -> is_sor e0 = false ->
  exists old, Forall (seen evs) old /\ e = eval_history old e0 /\ is_sor e = false /\ is_associated e = is_associated e0.
Proof.
  intros evs fv file e0 e H S. induction H as [|e1 ps H IH SE|e1 H IH SC].
  - exists []. repeat split; auto.
  - destruct IH as (old & F & E & NS & A). exists (old ++ [ps]). split; [apply Forall_app; split; [exact F|constructor; [exact SE|constructor]]|].
    destruct (eval_head ps e1) as (H1 & H2). split; [rewrite eval_history_app, <- E; reflexivity|]. split; congruence.
  - destruct IH as (old & F & E & NS & A). exists old. unfold schedule. rewrite NS. auto.
Qed.
Lemma evolves_sor : forall evs fv file e0 e, evolves evs fv file (Sor :: e0) e -> is_sor e0 = false ->
  e = Sor :: e0 \/ (In (EvSchedule fv file true) evs /\ exists old, Forall (seen evs) old /\ e = eval_history old e0 /\ is_sor e = false /\ is_associated e = is_associated e0).
Proof.
  intros evs fv file e0 e H S. induction H as [|e1 ps H IH SE|e1 H IH SC].
  - now left.
  - destruct IH as [->|(SC & old & F & E & NS & A)]; [now left|]. right. split; [exact SC|]. exists (old ++ [ps]).
    split; [apply Forall_app; split; [exact F|constructor; [exact SE|constructor]]|]. destruct (eval_head ps e1) as (H1 & H2).
    split; [rewrite eval_history_app, <- E; reflexivity|]. split; congruence.
  - destruct IH as [->|(SC' & old & F & E & NS & A)].
    + right. split; [exact SC|]. exists []. cbn. repeat split; auto.
    + right. split; [exact SC|]. exists old. unfold schedule. rewrite NS. auto.
Qed.

Lemma sor_bytes : forall r, depex_from (9%N :: r) = Sor :: depex_from r.
Proof. intros r. rewrite depex_from_cons. reflexivity. Qed.
Lemma before_bytes : forall g, wf_guid g -> exists u, depex_from (0%N :: g ++ [8%N]) = Before u :: [End].
Proof.
  intros g W. rewrite depex_from_cons, opcode_from_before by exact W. eexists. f_equal. cbn [byte_size]. change (skipn (1 + guid_size) (0%N :: g ++ [8%N])) with (skipn 16 (g ++ [8%N])).
  unfold wf_guid in W. rewrite skipn_app, W, Nat.sub_diag, skipn_all2 by lia. reflexivity.
Qed.
Lemma after_bytes : forall g, wf_guid g -> exists u, depex_from (1%N :: g ++ [8%N]) = After u :: [End].
Proof.
  intros g W. rewrite depex_from_cons, opcode_from_after by exact W. eexists. f_equal. cbn [byte_size]. change (skipn (1 + guid_size) (1%N :: g ++ [8%N])) with (skipn 16 (g ++ [8%N])).
  unfold wf_guid in W. rewrite skipn_app, W, Nat.sub_diag, skipn_all2 by lia. reflexivity.
Qed.

(** A depex that evaluates to true is met. *)
Lemma true_is_met : forall evs p now fv file dx e dep, In (EvPass p now) evs -> evolved evs fv file dx (Some e) -> fst (eval now e) = true -> says dx dep ->
  met evs p fv file dep.
Proof.
  intros evs p now fv file dx e dep P EV T S. destruct S as [|x tail W|x tail W|g W|g W]; cbn [evolved] in EV; [destruct EV|..].
  - destruct (not_associated_encode x tail W) as (_ & NS). destruct (evolves_plain _ _ _ _ _ EV NS) as (old & F & E & _ & _). subst e.
    cbn [met]. exists now, old. split; [exact P|]. split; [exact F|]. now apply eval_after_history in T.
  - rewrite sor_bytes in EV. destruct (not_associated_encode x tail W) as (_ & NS). destruct (evolves_sor _ _ _ _ _ EV NS) as [->|(SC & old & F & E & _ & _)]; [discriminate|]. subst e.
    cbn [met]. split; [exact SC|]. exists now, old. split; [exact P|]. split; [exact F|]. now apply eval_after_history in T.
  - exfalso. destruct (before_bytes g W) as (u & B). rewrite B in EV. destruct (evolves_plain _ _ _ _ _ EV eq_refl) as (old & _ & E & _ & _). subst e.
    assert (X : eval_history old [Before u; End] = [Before u; End]) by (clear; induction old; [reflexivity|exact IHold]). rewrite X in T. discriminate.
  - exfalso. destruct (after_bytes g W) as (u & B). rewrite B in EV. destruct (evolves_plain _ _ _ _ _ EV eq_refl) as (old & _ & E & _ & _). subst e.
    assert (X : eval_history old [After u; End] = [After u; End]) by (clear; induction old; [reflexivity|exact IHold]). rewrite X in T. discriminate.
Qed.

(** A depex object that is associated says so. *)
Lemma assoc_says : forall evs fv file dx e a dep, evolved evs fv file dx (Some e) -> is_associated e = Some a -> says dx dep ->
  dep = match a with ABefore g => DBefore g | AAfter g => DAfter g end.
Proof.
  intros evs fv file dx e a dep EV A S. destruct S as [|x tail W|x tail W|g W|g W]; cbn [evolved] in EV; [destruct EV|..].
  - destruct (not_associated_encode x tail W) as (NA & NS). destruct (evolves_plain _ _ _ _ _ EV NS) as (old & _ & _ & _ & Q). congruence.
  - rewrite sor_bytes in EV. destruct (not_associated_encode x tail W) as (NA & NS). destruct (evolves_sor _ _ _ _ _ EV NS) as [->|(_ & old & _ & _ & _ & Q)]; [discriminate|congruence].
  - pose proof (associated_before g [8%N] W) as AB. destruct (before_bytes g W) as (u & B). assert (NS : is_sor (depex_from (0%N :: g ++ [8%N])) = false) by (rewrite B; reflexivity).
    destruct (evolves_plain _ _ _ _ _ EV NS) as (old & _ & _ & _ & Q). rewrite A, AB in Q. injection Q as ->. reflexivity.
  - pose proof (associated_after g [8%N] W) as AB. destruct (after_bytes g W) as (u & B). assert (NS : is_sor (depex_from (1%N :: g ++ [8%N])) = false) by (rewrite B; reflexivity).
    destruct (evolves_plain _ _ _ _ _ EV NS) as (old & _ & _ & _ & Q). rewrite A, AB in Q. injection Q as ->. reflexivity.
Qed.

Lemma arch_eq : ALL_ARCH = arch_protocols.
Proof. vm_compute. reflexivity. Qed.
(** The default depex asks for every architectural protocol. *)
Definition arch_expr : expr := EAnd (EProto (nth 0 ALL_ARCH [])) (EAnd (EProto (nth 1 ALL_ARCH [])) (EAnd (EProto (nth 2 ALL_ARCH [])) (EAnd (EProto (nth 3 ALL_ARCH []))
  (EAnd (EProto (nth 4 ALL_ARCH [])) (EAnd (EProto (nth 5 ALL_ARCH [])) (EAnd (EProto (nth 6 ALL_ARCH [])) (EAnd (EProto (nth 7 ALL_ARCH [])) (EAnd (EProto (nth 8 ALL_ARCH []))
  (EAnd (EProto (nth 9 ALL_ARCH [])) (EAnd (EProto (nth 10 ALL_ARCH [])) (EProto (nth 11 ALL_ARCH [])))))))))))).
Lemma arch_depex : forall ps, fst (eval ps (depex_from ALL_ARCH_DEPEX)) = true <-> incl arch_protocols ps.
Proof.
  intros ps. assert (B : ALL_ARCH_DEPEX = depex_bytes arch_expr ++ []) by (vm_compute; reflexivity). rewrite B.
  assert (W : wf_expr arch_expr) by (repeat split). rewrite (eval_plain arch_expr [] ps W), <- arch_eq.
  unfold arch_expr. cbn [holds nth ALL_ARCH]. unfold incl. split.
  - intros H x I. unfold ALL_ARCH in I. cbn [In] in I. repeat (destruct I as [<-|I]; [tauto|]). destruct I.
  - intros H. repeat split; apply H; unfold ALL_ARCH; cbn [In]; tauto.
Qed.

(** ** Events *)
Lemma started_cons : forall e evs, started (e :: evs) = (match e with EvStart _ id => [id] | _ => [] end) ++ started evs.
Proof. reflexivity. Qed.
Lemma tried_cons : forall p e evs, tried p (e :: evs) = tried p evs ++ match e with EvTry q id => if Nat.eqb q p then [id] else [] | _ => [] end.
Proof. intros p e evs. unfold tried. cbn [rev]. rewrite flat_map_app. cbn [flat_map]. now rewrite app_nil_r. Qed.
Lemma started_in_cons : forall p e evs, started_in p (e :: evs) = started_in p evs ++ match e with EvStart q id => if Nat.eqb q p then [id] else [] | _ => [] end.
Proof. intros p e evs. unfold started_in. cbn [rev]. rewrite flat_map_app. cbn [flat_map]. now rewrite app_nil_r. Qed.
Lemma incl_cons_r : forall A (e : A) l, incl l (e :: l).
Proof. intros A e l x I. now right. Qed.

(** Events of no consequence for the invariant. *)
Definition quiet (e : event) : Prop := match e with EvSchedule _ _ _ | EvTrust _ _ _ | EvInstall _ | EvReturn _ => True | EvLoad _ _ => True | _ => False end.
Lemma quiet_facts : forall e evs, quiet e -> started (e :: evs) = started evs /\ found_ids (e :: evs) = found_ids evs /\ forall p, tried p (e :: evs) = tried p evs /\ started_in p (e :: evs) = started_in p evs.
Proof. intros e evs Q. split; [|split]; [| |intros p; rewrite tried_cons, started_in_cons]; destruct e; try destruct Q; try split; try reflexivity; apply app_nil_r. Qed.

Lemma emit_inv : forall frame w e, Inv frame w -> quiet e -> Inv frame (emit w e).
Proof.
  intros frame w e I Q. destruct I as [I1 I2 I3 I4 I5 I6 I7 I8 I9 I10 I11 I12]. destruct (quiet_facts e (w_events w) Q) as (S & F & T). unfold emit.
  constructor; cbn [w_events w_pass w_next w_arch w_before w_after]; unfold pool in *; cbn [w_pending w_before w_after] in *.
  - rewrite S. exact I1.
  - eapply Forall_impl; [|exact I2]. intros d. apply tracked_mono, incl_cons_r.
  - eapply Forall_impl; [|exact I3]. intros d. apply secure_mono, incl_cons_r.
  - rewrite S, F. exact I4.
  - rewrite F. exact I5.
  - exact I6.
  - exact I7.
  - intros A. destruct (I8 A) as (q & ps & A1 & A2 & A3). exists q, ps. split; [exact A1|]. split; [now right|exact A3].
  - constructor; [destruct e; try destruct Q; exact I|exact I9].
  - intros p id [->|In_]; [destruct Q|]. destruct (I10 p id In_) as (J1 & J2). rewrite (proj1 (T p)). split; [exact J1|]. eapply cleared_mono; [apply incl_cons_r|exact J2].
  - intros p L. destruct (I11 p L) as (gs & G1 & G2). exists gs. rewrite (proj1 (T p)). split; [exact G1|]. eapply Forall_impl; [|exact G2]. intros g. apply group_ok_mono, incl_cons_r.
  - intros p. destruct (T p) as (-> & ->). apply I12.
Qed.
Lemma emit_ext : forall b w e, quiet e -> ext b w (emit w e).
Proof. intros b w e Q. destruct (quiet_facts e (w_events w) Q) as (_ & _ & T). split; [apply incl_cons_r|]. split; [apply le_n|]. intros q _. apply T. Qed.
Lemma emit_kept : forall frame w e, quiet e -> (forall id r, e <> EvLoad id r) -> kept frame w -> kept frame (emit w e).
Proof.
  intros frame w e Q NL K id [->|I]; [destruct (NL id (Loaded SViolation)); reflexivity|]. destruct (quiet_facts e (w_events w) Q) as (S & _).
  cbn [emit w_events]. rewrite S. exact (K id I).
Qed.

(** The other fields. *)
Lemma same_inv : forall frame w w', Inv frame w -> w_pending w' = w_pending w -> w_before w' = w_before w -> w_after w' = w_after w -> w_events w' = w_events w ->
  w_next w' = w_next w -> w_pass w' = w_pass w -> w_arch w' = w_arch w -> Inv frame w' /\ (forall b, ext b w w') /\ (kept frame w -> kept frame w').
Proof.
  intros frame w w' I E1 E2 E3 E4 E5 E6 E7. assert (P : pool w' = pool w) by (unfold pool; congruence).
  split; [|split].
  - destruct I as [I1 I2 I3 I4 I5 I6 I7 I8 I9 I10 I11 I12]. constructor; rewrite ?P, ?E2, ?E3, ?E4, ?E5, ?E6, ?E7; assumption.
  - intros b. unfold ext. rewrite E4, E6. split; [apply incl_refl|]. split; auto.
  - unfold kept. rewrite P, E4. auto.
Qed.

Lemma nodup_app_r : forall A (a b : list A), NoDup (a ++ b) -> NoDup b.
Proof. intros A a b H. induction a as [|x a IH]; [exact H|]. inversion H. auto. Qed.
(** A part of the frame can be forgotten. *)
Lemma inv_frame : forall a frame w, Inv (a ++ frame) w -> Inv frame w.
Proof.
  intros a frame w [I1 I2 I3 I4 I5 I6 I7 I8 I9 I10 I11 I12]. unfold ids in *.
  assert (P : Permutation (map d_id (pool w ++ a ++ frame) ++ started (w_events w)) (map d_id a ++ map d_id (pool w ++ frame) ++ started (w_events w))).
  { rewrite !map_app, <- !app_assoc. apply Permutation_app_swap_app. }
  constructor; try assumption.
  - apply (Permutation_NoDup P) in I1. apply nodup_app_r in I1. exact I1.
  - rewrite !Forall_app in *. tauto.
  - rewrite !Forall_app in *. tauto.
  - unfold ids. rewrite !map_app, !Forall_app in *. tauto.
Qed.

(** Same drivers, in another order. *)
Lemma kept_perm : forall frame frame' w, Permutation frame frame' -> kept frame w -> kept frame' w.
Proof.
  intros frame frame' w P K id I. destruct (K id I) as [X|X]; [left|now right]. eapply Permutation_in; [|exact X]. unfold keys.
  apply Permutation_map. now apply Permutation_app_head.
Qed.

(** The same drivers, elsewhere. *)
Definition before_ok (m : list (bytes * list driver)) : Prop := Forall (fun gl => Forall (fun d => assoc_of d = Some (ABefore (fst gl))) (snd gl)) m.
Definition after_ok (m : list (bytes * list driver)) : Prop := Forall (fun gl => Forall (fun d => assoc_of d = Some (AAfter (fst gl))) (snd gl)) m.
Lemma repool : forall frame frame' w w', Inv frame w -> Permutation (pool w ++ frame) (pool w' ++ frame') -> before_ok (w_before w') -> after_ok (w_after w') ->
  w_events w' = w_events w -> w_next w' = w_next w -> w_pass w' = w_pass w -> w_arch w' = w_arch w ->
  Inv frame' w' /\ (forall b, ext b w w') /\ (kept frame w -> kept frame' w').
Proof.
  intros frame frame' w w' I P B A E1 E2 E3 E4.
  assert (PI : Permutation (ids (pool w ++ frame)) (ids (pool w' ++ frame'))) by now apply Permutation_map.
  split; [|split].
  - destruct I as [I1 I2 I3 I4 I5 I6 I7 I8 I9 I10 I11 I12]. constructor; rewrite ?E1, ?E2, ?E3, ?E4; try assumption.
    + eapply Permutation_NoDup; [|exact I1]. now apply Permutation_app_tail.
    + eapply Permutation_Forall; eassumption.
    + eapply Permutation_Forall; eassumption.
    + eapply Permutation_Forall; [|exact I4]. now apply Permutation_app_tail.
  - intros b. unfold ext. rewrite E1, E3. split; [apply incl_refl|]. split; auto.
  - intros K id I'. rewrite E1 in I' |- *. destruct (K id I') as [X|X]; [left|now right]. eapply Permutation_in; [|exact X]. now apply Permutation_map.
Qed.

(** One driver, changed but with the same number. *)
Lemma replace_pending : forall frame w l1 d l2 d', Inv frame w -> w_pending w = l1 ++ d :: l2 -> d_id d' = d_id d -> d_image d' = d_image d ->
  (tracked (w_events w) d -> tracked (w_events w) d') -> (secure (w_events w) d -> secure (w_events w) d') ->
  let w' := set_pending w (l1 ++ d' :: l2) in Inv frame w' /\ (forall b, ext b w w') /\ (kept frame w -> kept frame w').
Proof.
  intros frame w l1 d l2 d' I E D DI T S w'.
  assert (PK : keys (pool w' ++ frame) = keys (pool w ++ frame)).
  { unfold keys, pool, w'. cbn [set_pending w_pending w_before w_after]. rewrite E, !map_app. cbn [map]. now rewrite D, DI. }
  assert (PI : ids (pool w' ++ frame) = ids (pool w ++ frame)).
  { unfold ids, pool, w'. cbn [set_pending w_pending w_before w_after]. rewrite E, !map_app. cbn [map]. now rewrite D. }
  split; [|split].
  - destruct I as [I1 I2 I3 I4 I5 I6 I7 I8 I9 I10 I11 I12]. constructor; try assumption.
    + rewrite PI. exact I1.
    + unfold pool, w' in *. cbn [set_pending w_pending w_before w_after w_events] in *. rewrite E in I2. rewrite !Forall_app in I2 |- *.
      destruct I2 as (((A1 & A2) & A3) & A4). inversion A2; subst. repeat split; try assumption; try tauto. constructor; auto.
    + unfold pool, w' in *. cbn [set_pending w_pending w_before w_after w_events] in *. rewrite E in I3. rewrite !Forall_app in I3 |- *.
      destruct I3 as (((A1 & A2) & A3) & A4). inversion A2; subst. repeat split; try assumption; try tauto. constructor; auto.
    + rewrite PI. exact I4.
  - intros b. split; [apply incl_refl|]. split; [apply le_n|split; reflexivity].
  - intros K id I'. rewrite PK. exact (K id I').
Qed.
Lemma replace_frame : forall frame w d d', Inv (d :: frame) w -> d_id d' = d_id d ->
  tracked (w_events w) d' -> secure (w_events w) d' -> Inv (d' :: frame) w /\ (d_image d' = d_image d -> kept (d :: frame) w -> kept (d' :: frame) w).
Proof.
  intros frame w d d' I D T S.
  assert (PI : ids (pool w ++ d' :: frame) = ids (pool w ++ d :: frame)) by (unfold ids; rewrite !map_app; cbn [map]; now rewrite D).
  split.
  - destruct I as [I1 I2 I3 I4 I5 I6 I7 I8 I9 I10 I11 I12]. constructor; try assumption; rewrite ?PI; try assumption.
    + rewrite !Forall_app in I2 |- *. destruct I2 as (A1 & A2). inversion A2; subst. split; [exact A1|]. constructor; auto.
    + rewrite !Forall_app in I3 |- *. destruct I3 as (A1 & A2). inversion A2; subst. split; [exact A1|]. constructor; auto.
  - intros DI K id I'. assert (PK : keys (pool w ++ d' :: frame) = keys (pool w ++ d :: frame)) by (unfold keys; rewrite !map_app; cbn [map]; now rewrite D, DI). rewrite PK. exact (K id I').
Qed.

(** ** Requests *)
Lemma schedule_in_inv : forall h f l l', schedule_in h f l = Some l' ->
  exists l1 d l2 e, l = l1 ++ d :: l2 /\ l' = l1 ++ Driver (d_id d) (d_fv d) (d_file d) (Some (schedule e)) (d_image d) (d_status d) :: l2 /\
    d_fv d = h /\ d_file d = f /\ d_depex d = Some e /\ is_sor e = true.
Proof.
  intros h f. induction l as [|d l IH]; intros l' H; cbn [schedule_in] in H; [discriminate|].
  assert (REC : forall x, option_map (cons d) (schedule_in h f l) = Some x ->
    exists l1 d0 l2 e, d :: l = l1 ++ d0 :: l2 /\ x = l1 ++ Driver (d_id d0) (d_fv d0) (d_file d0) (Some (schedule e)) (d_image d0) (d_status d0) :: l2 /\
      d_fv d0 = h /\ d_file d0 = f /\ d_depex d0 = Some e /\ is_sor e = true).
  { intros x X. destruct (schedule_in h f l) as [y|]; [|discriminate]. injection X as <-. destruct (IH y eq_refl) as (l1 & d0 & l2 & e & -> & -> & R).
    exists (d :: l1), d0, l2, e. split; [reflexivity|]. split; [reflexivity|exact R]. }
  destruct (d_depex d) as [e|] eqn:DE; [|now apply REC].
  destruct ((d_fv d =? h)%N && bytes_eqb (d_file d) f && is_sor e) eqn:C; [|now apply REC].
  apply andb_prop in C. destruct C as (C & SO). apply andb_prop in C. destruct C as (C1 & C2). apply N.eqb_eq in C1. apply bytes_eqb_eq in C2.
  injection H as <-. exists [], d, l, e. repeat split; auto.
Qed.
Lemma trust_in_inv : forall h f l l', trust_in h f l = Some l' ->
  exists l1 d l2, l = l1 ++ d :: l2 /\ l' = l1 ++ Driver (d_id d) (d_fv d) (d_file d) (d_depex d) (d_image d) SSuccess :: l2 /\ d_fv d = h /\ d_file d = f.
Proof.
  intros h f. induction l as [|d l IH]; intros l' H; cbn [trust_in] in H; [discriminate|].
  destruct ((d_fv d =? h)%N && bytes_eqb (d_file d) f) eqn:C.
  - apply andb_prop in C. destruct C as (C1 & C2). apply N.eqb_eq in C1. apply bytes_eqb_eq in C2. injection H as <-. exists [], d, l. repeat split; auto.
  - destruct (trust_in h f l) as [y|]; [|discriminate]. injection H as <-. destruct (IH y eq_refl) as (l1 & d0 & l2 & -> & -> & R). exists (d :: l1), d0, l2. repeat split; tauto.
Qed.

Definition holds_after {A} (frame : list driver) (b : nat) (w : world) (r : run A) : Prop :=
  Inv frame (snd r) /\ ext b w (snd r) /\ (forall a, fst r = Done a -> kept frame w -> kept frame (snd r)).

Lemma core_schedule_ok : forall frame w h f, Inv frame w ->
  let w' := core_schedule w h f in Inv frame w' /\ (forall b, ext b w w') /\ (kept frame w -> kept frame w').
Proof.
  intros frame w h f I w'. unfold w', core_schedule. destruct (schedule_in h f (w_pending w)) as [l|] eqn:S.
  - destruct (schedule_in_inv _ _ _ _ S) as (l1 & d & l2 & e & E & -> & FV & FI & DE & SO).
    pose proof (emit_inv frame w (EvSchedule h f true) I Logic.I) as I1.
    change (emit (set_pending w ?x) ?y) with (set_pending (emit w y) x).
    destruct (replace_pending frame (emit w (EvSchedule h f true)) l1 d l2
                (Driver (d_id d) (d_fv d) (d_file d) (Some (schedule e)) (d_image d) (d_status d)) I1 E eq_refl eq_refl) as (R1 & R2 & R3).
    + intros (dx & T1 & T2). exists dx. cbn [d_id d_fv d_file d_depex]. split; [exact T1|]. rewrite DE in T2. destruct dx as [b|]; cbn [evolved] in *; [|exact T2].
      eapply ev_sched; [exact T2|]. left. now rewrite FV, FI.
    + intros SE IM. cbn [d_image d_status d_id d_fv d_file] in *. exact (SE IM).
    + split; [exact R1|]. split.
      * intros b. eapply ext_trans; [apply (emit_ext b w (EvSchedule h f true) Logic.I)|apply R2].
      * intros K. apply R3. apply emit_kept; [exact Logic.I|discriminate|exact K].
  - split; [apply emit_inv; [exact I|exact Logic.I]|]. split; [intros b; apply emit_ext; exact Logic.I|]. intros K. apply emit_kept; [exact Logic.I|discriminate|exact K].
Qed.
Lemma core_trust_ok : forall frame w h f, Inv frame w ->
  let w' := core_trust w h f in Inv frame w' /\ (forall b, ext b w w') /\ (kept frame w -> kept frame w').
Proof.
  intros frame w h f I w'. unfold w', core_trust. destruct (trust_in h f (w_pending w)) as [l|] eqn:S.
  - destruct (trust_in_inv _ _ _ _ S) as (l1 & d & l2 & E & -> & FV & FI).
    pose proof (emit_inv frame w (EvTrust h f true) I Logic.I) as I1.
    change (emit (set_pending w ?x) ?y) with (set_pending (emit w y) x).
    destruct (replace_pending frame (emit w (EvTrust h f true)) l1 d l2
                (Driver (d_id d) (d_fv d) (d_file d) (d_depex d) (d_image d) SSuccess) I1 E eq_refl eq_refl) as (R1 & R2 & R3).
    + intros (dx & T1 & T2). exists dx. cbn [d_id d_fv d_file d_depex]. split; [exact T1|exact T2].
    + intros SE IM. cbn [d_image d_status d_id d_fv d_file] in *. destruct (SE IM) as (S1 & _). split; [exact S1|]. right. split; [reflexivity|]. left. now rewrite FV, FI.
    + split; [exact R1|]. split.
      * intros b. eapply ext_trans; [apply (emit_ext b w (EvTrust h f true) Logic.I)|apply R2].
      * intros K. apply R3. apply emit_kept; [exact Logic.I|discriminate|exact K].
  - split; [apply emit_inv; [exact I|exact Logic.I]|]. split; [intros b; apply emit_ext; exact Logic.I|]. intros K. apply emit_kept; [exact Logic.I|discriminate|exact K].
Qed.

(** ** New drivers *)
Lemma found_ok : forall frame w h f dx, Inv frame w ->
  let w' := found w h f dx in Inv frame w' /\ (forall b, ext b w w') /\ (kept frame w -> kept frame w').
Proof.
  intros frame w h f dx I w'. set (d := Driver (w_next w) h f (option_map depex_from dx) false SNotReady) in *.
  set (e := EvFound (w_next w) h f dx) in *.
  assert (EV : w_events w' = e :: w_events w) by reflexivity.
  assert (P : Permutation (d :: pool w ++ frame) (pool w' ++ frame)).
  { unfold pool, w', found. cbn [w_pending w_before w_after]. rewrite <- !app_assoc. cbn [app]. apply Permutation_middle. }
  assert (TR : forall p, tried p (e :: w_events w) = tried p (w_events w)) by (intros p; rewrite tried_cons; apply app_nil_r).
  assert (SI : forall p, started_in p (e :: w_events w) = started_in p (w_events w)) by (intros p; rewrite started_in_cons; apply app_nil_r).
  split; [|split].
  - destruct I as [I1 I2 I3 I4 I5 I6 I7 I8 I9 I10 I11 I12]. constructor; rewrite ?EV.
    + rewrite started_cons. cbn [app e]. eapply Permutation_NoDup; [apply Permutation_app_tail; apply Permutation_map; exact P|]. cbn [map app]. constructor; [|exact I1].
      cbn [d_id d]. intros X. rewrite Forall_forall in I4. assert (Y : w_next w < w_next w); [|lia]. apply I4. rewrite app_assoc. apply in_or_app. left. exact X.
    + eapply Permutation_Forall; [exact P|]. constructor.
      * exists dx. cbn [d d_id d_fv d_file d_depex]. split; [now left|]. destruct dx; cbn [option_map evolved]; [constructor|exact Logic.I].
      * eapply Forall_impl; [|exact I2]. intros x. apply tracked_mono, incl_cons_r.
    + eapply Permutation_Forall; [exact P|]. constructor; [intros X; discriminate|]. eapply Forall_impl; [|exact I3]. intros x. apply secure_mono, incl_cons_r.
    + change (found_ids (e :: w_events w)) with (w_next w :: found_ids (w_events w)). rewrite started_cons. cbn [e app].
      eapply Permutation_Forall; [apply Permutation_app; [apply Permutation_map; exact P|apply Permutation_refl]|]. cbn [map app]. change (w_next w') with (S (w_next w)).
      rewrite !Forall_app in I4. destruct I4 as (A1 & A2 & A3). constructor; [cbn; lia|]. rewrite !Forall_app. split; [eapply Forall_impl; [|exact A1]; cbn; lia|].
      split; [eapply Forall_impl; [|exact A2]; cbn; lia|]. constructor; [lia|]. eapply Forall_impl; [|exact A3]; cbn; lia.
    + change (found_ids (e :: w_events w)) with (w_next w :: found_ids (w_events w)). constructor; [|exact I5]. intros X. rewrite !Forall_app in I4. destruct I4 as (_ & _ & A3).
      rewrite Forall_forall in A3. specialize (A3 _ X). lia.
    + exact I6.
    + exact I7.
    + intros A. destruct (I8 A) as (q & ps & A1 & A2 & A3). exists q, ps. split; [exact A1|]. split; [now right|exact A3].
    + constructor; [exact Logic.I|exact I9].
    + intros p id [X|In_]; [discriminate|]. destruct (I10 p id In_) as (J1 & J2). rewrite TR. split; [exact J1|]. eapply cleared_mono; [apply incl_cons_r|exact J2].
    + intros p L. destruct (I11 p L) as (gs & G1 & G2). exists gs. rewrite TR. split; [exact G1|]. eapply Forall_impl; [|exact G2]. intros g. apply group_ok_mono, incl_cons_r.
    + intros p. rewrite TR, SI. apply I12.
  - intros b. split; [apply incl_cons_r|]. split; [apply le_n|]. intros q _. split; [apply TR|apply SI].
  - intros K id I'. rewrite EV in I'. destruct I' as [X|I']; [discriminate|]. rewrite EV, started_cons. cbn [e app]. destruct (K id I') as [X|X]; [left|now right].
    eapply Permutation_in; [apply Permutation_map; exact P|]. cbn [map app]. now right.
Qed.

Lemma holds_done : forall A frame b w w' (a : A), Inv frame w' -> ext b w w' -> (kept frame w -> kept frame w') -> holds_after frame b w (Done a, w').
Proof. intros A frame b w w' a I E K. split; [exact I|]. split; [exact E|]. intros x _. exact K. Qed.
Lemma holds_then : forall A B frame b w (r : run A) (k : A -> world -> run B), holds_after frame b w r ->
  (forall a w1, r = (Done a, w1) -> Inv frame w1 -> ext b w w1 -> holds_after frame b w1 (k a w1)) -> holds_after frame b w (and_then r k).
Proof.
  intros A B frame b w [[a| |] w1] k (H1 & H2 & H3) H; cbn [and_then fst snd] in *.
  - destruct (H a w1 eq_refl H1 H2) as (K1 & K2 & K3). split; [exact K1|]. split; [eapply ext_trans; eassumption|]. intros x X K. apply (K3 x X). apply (H3 a eq_refl K).
  - split; [exact H1|]. split; [exact H2|]. intros x X. discriminate.
  - split; [exact H1|]. split; [exact H2|]. intros x X. discriminate.
Qed.
(** From a world reached on the way. *)
Lemma holds_from : forall A frame b w w1 (r : run A), ext b w w1 -> (kept frame w -> kept frame w1) -> holds_after frame b w1 r -> holds_after frame b w r.
Proof.
  intros A frame b w w1 r E K (H1 & H2 & H3). split; [exact H1|]. split; [eapply ext_trans; eassumption|]. intros a D K0. apply (H3 a D). auto.
Qed.

Lemma add_files_ok : forall h l frame b w, Inv frame w -> holds_after frame b w (add_files w h l).
Proof.
  intros h. induction l as [|x l IH]; intros frame b w I; cbn [add_files].
  - apply holds_done; [exact I|apply ext_refl|auto].
  - destruct x as [name dx [|]|name dx [|n]| |].
    + destruct (found_ok frame w h name dx I) as (F1 & F2 & F3). eapply holds_from; [apply F2|exact F3|]. now apply IH.
    + now apply IH.
    + now apply IH.
    + match goal with |- holds_after _ _ _ (add_files ?w1 _ _) => destruct (same_inv frame w w1 I) as (F1 & F2 & F3); try reflexivity; eapply holds_from; [apply F2|exact F3|]; now apply IH end.
    + now apply IH.
    + split; [exact I|]. split; [apply ext_refl|]. intros a X. discriminate.
Qed.
Lemma add_fv_handles_ok : forall l frame b w, Inv frame w -> holds_after frame b w (add_fv_handles w l).
Proof.
  induction l as [|[h c] l IH]; intros frame b w I; cbn [add_fv_handles].
  - apply holds_done; [exact I|apply ext_refl|auto].
  - destruct (existsb (N.eqb h) (w_processed w)); [now apply IH|]. destruct (same_inv frame w (process w h) I) as (F1 & F2 & F3); try reflexivity.
    eapply holds_from; [apply F2|exact F3|]. destruct c as [files|]; [|now apply IH]. apply holds_then; [now apply add_files_ok|]. intros a w1 _ I1 _. now apply IH.
Qed.

(** ** What images and notifications do *)
Definition nested_ok (nested : world -> run (res derr unit)) : Prop := forall frame w, Inv frame w -> holds_after frame (w_pass w) w (nested w).

Lemma acts_ok : forall nested, nested_ok nested -> forall l frame b w, Inv frame w -> b <= w_pass w -> holds_after frame b w (acts nested l w).
Proof.
  intros nested NO. induction l as [|a l IH]; intros frame b w I B; cbn [acts].
  - apply holds_done; [exact I|apply ext_refl|auto].
  - destruct a as [g|g|v|h f|h f|].
    + match goal with |- holds_after _ _ _ (acts _ _ ?w1) => destruct (same_inv frame w w1 I) as (F1 & F2 & F3); try reflexivity; eapply holds_from; [apply F2|exact F3|]; apply IH; [exact F1|exact B] end.
    + match goal with |- holds_after _ _ _ (acts _ _ ?w1) => destruct (same_inv frame w w1 I) as (F1 & F2 & F3); try reflexivity; eapply holds_from; [apply F2|exact F3|]; apply IH; [exact F1|exact B] end.
    + apply holds_then; [now apply add_fv_handles_ok|]. intros _ w1 _ I1 (_ & L & _). apply IH; [exact I1|lia].
    + destruct (core_schedule_ok frame w h f I) as (F1 & F2 & F3). eapply holds_from; [apply F2|exact F3|]. apply IH; [exact F1|]. destruct (F2 0) as (_ & L & _). lia.
    + destruct (core_trust_ok frame w h f I) as (F1 & F2 & F3). eapply holds_from; [apply F2|exact F3|]. apply IH; [exact F1|]. destruct (F2 0) as (_ & L & _). lia.
    + apply holds_then.
      * destruct (NO frame w I) as (N1 & N2 & N3). split; [exact N1|]. split; [eapply ext_le; eassumption|exact N3].
      * intros r w1 _ I1 (_ & L & _). eapply holds_from; [apply (emit_ext b w1 (EvReturn r) Logic.I)|apply emit_kept; [exact Logic.I|discriminate]|].
        apply IH; [apply emit_inv; [exact I1|exact Logic.I]|cbn [emit w_pass]; lia].
Qed.
