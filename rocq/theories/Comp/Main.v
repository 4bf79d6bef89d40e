(** The dispatch as a whole. *)
From Verif Require Import Base.Prelude Base.Omap Comp.Model Comp.Spec Comp.Proofs Comp.Params Comp.Dispatch.
From Coq Require Import Permutation.
Local Open Scope N_scope.

(** ** The storage over a sequence of runs *)
Record hist (s s' : storage) (log : list run_entry) : Prop := {
  hi_wf : wf s';
  hi_gr : grows s s';
  hi_la : later (view_of s) (view_of s');
  hi_co : forall ty, coming s ty -> coming s' ty;
  hi_e : forall e, In e log -> grows s (r_store e) /\ later (view_of s) (view_of (r_store e))
                   /\ (forall ty, coming s ty -> v_service (view_of (r_store e)) ty <> None);
  hi_p : forall l1 e1 l2 e2 ty, log = l1 ++ e1 :: l2 -> In e2 l2 -> published e1 ty -> v_service (view_of (r_store e2)) ty <> None;
  hi_q : forall e ty, In e log -> published e ty -> coming s' ty }.

Lemma hist_nil s : wf s -> hist s s [].
Proof.
  intros W. split.
  - exact W.
  - apply grows_refl.
  - apply later_refl.
  - auto.
  - intros e [].
  - intros l1 e1 l2 e2 ty E. destruct l1; discriminate E.
  - intros e ty [].
Qed.

Lemma hist_app a b c l1 l2 : hist a b l1 -> hist b c l2 -> hist a c (l1 ++ l2).
Proof.
  intros [A1 A2 A3 A4 A5 A6 A7] [B1 B2 B3 B4 B5 B6 B7].
  split; auto.
  - exact (grows_trans _ _ _ A2 B2).
  - exact (later_trans _ _ _ A3 B3).
  - intros e He. apply in_app_or in He. destruct He as [He|He]; [auto|]. destruct (B5 e He) as (X & Y & Z).
    split; [exact (grows_trans _ _ _ A2 X)|]. split; [exact (later_trans _ _ _ A3 Y)|auto].
  - intros k1 e1 k2 e2 ty E H2 P. apply app_eq_app in E. destruct E as (m & [[-> E]|[-> E]]).
    + destruct m as [|x m].
      * cbn in E. apply (B6 [] e1 k2 e2 ty); [symmetry; exact E|exact H2|exact P].
      * cbn in E. injection E as -> ->. apply in_app_or in H2. destruct H2 as [H2|H2].
        -- apply (A6 k1 x m e2 ty); auto.
        -- destruct (B5 e2 H2) as (_ & _ & Z). apply Z, (A7 x ty); [apply in_or_app; right; left; reflexivity|exact P].
    + apply (B6 m e1 k2 e2 ty); auto.
  - intros e ty He P. apply in_app_or in He. destruct He as [He|He]; eauto.
Qed.

(** ** Which component ran *)
Record parts (cs kept : list comp) (log : list run_entry) : Prop := {
  pa_perm : Permutation (map c_id cs) (map r_id log ++ map c_id kept);
  pa_same : forall c', In c' kept -> exists c, In c cs /\ same c c';
  pa_ent : forall e, In e log -> exists c, In c cs /\ entry_of c e }.

Lemma entry_same c c' e : same c c' -> entry_of c' e -> entry_of c e.
Proof. intros (A&B&C&D&E). unfold entry_of. rewrite A, B, C. auto. Qed.

Lemma parts_app cs1 k1 l1 cs2 k2 l2 : parts cs1 k1 l1 -> parts cs2 k2 l2 -> parts (cs1 ++ cs2) (k1 ++ k2) (l1 ++ l2).
Proof.
  intros [A B C] [A' B' C']. split.
  - rewrite !map_app, A, A', <- !app_assoc. apply Permutation_app_head. rewrite app_assoc, (Permutation_app_comm (map c_id k1)), <- app_assoc. reflexivity.
  - intros c Hc. apply in_app_or in Hc. destruct Hc as [Hc|Hc]; [destruct (B c Hc) as (x & X & Y)|destruct (B' c Hc) as (x & X & Y)];
      exists x; (split; [apply in_or_app; auto|exact Y]).
  - intros c Hc. apply in_app_or in Hc. destruct Hc as [Hc|Hc]; [destruct (C c Hc) as (x & X & Y)|destruct (C' c Hc) as (x & X & Y)];
      exists x; (split; [apply in_or_app; auto|exact Y]).
Qed.
Lemma parts_seq cs k1 l1 k2 l2 : parts cs k1 l1 -> parts k1 k2 l2 -> parts cs k2 (l1 ++ l2).
Proof.
  intros [A B C] [A' B' C']. split.
  - rewrite map_app, A, A', app_assoc. reflexivity.
  - intros c Hc. destruct (B' c Hc) as (x & X & Y). destruct (B x X) as (y & Y1 & Y2). exists y. split; [exact Y1|exact (same_trans _ _ _ Y2 Y)].
  - intros e He. apply in_app_or in He. destruct He as [He|He]; [auto|]. destruct (C' e He) as (x & X & Y). destruct (B x X) as (y & Y1 & Y2).
    exists y. split; [exact Y1|exact (entry_same _ _ _ Y2 Y)].
Qed.
Lemma parts_nil cs : parts cs cs [].
Proof. split; [reflexivity| |intros e []]. intros c Hc. exists c. split; [exact Hc|apply same_refl]. Qed.
Lemma parts_length cs kept log : parts cs kept log -> length cs = (length log + length kept)%nat.
Proof. intros [A _ _]. apply Permutation_length in A. rewrite app_length, !map_length in A. exact A. Qed.

(** ** One pass *)
Definition fine (dbg : bool) (c : comp) : Prop :=
  sound c /\ (dbg = true -> forall s gs, fst (c_body c s gs) = true).
Lemma same_fine dbg c c' : same c c' -> fine dbg c -> fine dbg c'.
Proof. intros (A&B&C&D&E) [[X Y] Z]. split; [split; [congruence|rewrite B; exact Y]|rewrite C; exact Z]. Qed.
Lemma waiting_set s c p : waiting s (set_failed c p) <-> waiting s c.
Proof. reflexivity. Qed.
Lemma deferred_idem s : s_deferred s = None -> apply_deferred s = s.
Proof. unfold apply_deferred. intros ->. reflexivity. Qed.

Lemma dispatch_ok dbg : forall cs s, wf s -> Forall (comp_ok s) cs ->
  (exists s' kept log, dispatch_components dbg s cs = Ok (s', kept, log) /\ hist s s' log /\ parts cs kept log /\ Forall (comp_ok s') kept
     /\ (log = [] -> (cs = [] /\ s' = s) \/ (s' = apply_deferred s /\ Forall (waiting s') kept)))
  \/ (dispatch_components dbg s cs = Panic /\ ~ Forall (fine dbg) cs).
Proof.
  induction cs as [|c t IH]; intros s W F.
  { left. exists s, [], []. split; [reflexivity|]. split; [apply hist_nil, W|]. split; [apply parts_nil|]. split; [constructor|]. auto. }
  inversion F as [|? ? F1 F2]; subst. cbn [dispatch_components].
  pose proof (run_comp_cases s c W F1) as R. destruct R as [p Wt|ok e s1 c1 En Eok Fe Wr Pu|N].
  - cbn [bind]. destruct (apply_deferred_ok s W) as (W1 & G1 & V1 & D1). destruct (apply_deferred_later s W) as [L1 C1].
    set (s1 := apply_deferred s) in *.
    assert (F2' : Forall (comp_ok s1) t) by (eapply Forall_impl; [|exact F2]; intros; eapply comp_ok_grows; eauto).
    assert (H1 : hist s s1 []).
    { split; auto.
      - intros ty H. left. apply C1, H.
      - intros e [].
      - intros l1 e1 l2 e2 ty E. destruct l1; discriminate E.
      - intros e ty []. }
    destruct (IH s1 W1 F2') as [(s' & kept & log & -> & H & P & K & Z)|[-> N]]; cbn [bind].
    + left. exists s', (set_failed c p :: kept), log. split; [reflexivity|].
      split; [exact (hist_app _ _ _ _ _ H1 H)|].
      split; [apply (parts_app [c] [set_failed c p] [] t kept log); [|exact P]|].
      { split; [reflexivity| |intros e []]. intros c' [<-|[]]. exists c. split; [left; reflexivity|repeat split]. }
      split; [constructor; [|exact K]; apply (comp_ok_grows s); [exact (grows_trans _ _ _ G1 (hi_gr _ _ _ H))|exact F1]|].
      intros El. right. destruct (Z El) as [[-> ->]|[-> Wk]].
      * split; [reflexivity|]. subst log. pose proof (parts_length _ _ _ P) as Hl. destruct kept; [|cbn in Hl; lia].
        constructor; [exact Wt|constructor].
      * rewrite (deferred_idem s1 D1) in *. split; [reflexivity|]. constructor; [exact Wt|exact Wk].
    + right. split; [reflexivity|]. intros Fi. inversion Fi; subst. contradiction.
  - cbn [bind]. destruct (apply_deferred_ok s W) as (W1 & G1 & V1 & D1). destruct (apply_deferred_later s W) as [L1 C1].
    set (s0 := apply_deferred s) in *. destruct (fetched_facts _ _ Fe W1) as (We & Ge & Ve & Qe).
    destruct (dbg && negb ok) eqn:Ed.
    { right. split; [reflexivity|]. intros Fi. inversion Fi as [|? ? [_ Fc] _]; subst. apply andb_true_iff in Ed. destruct Ed as [Ed1 Ed2].
      rewrite (Fc Ed1) in Ed2. discriminate. }
    pose proof Wr as (Ws & Gs & Ls & _).
    assert (Gx : grows s (r_store e)) by exact (grows_trans _ _ _ G1 Ge).
    assert (Lx : later (view_of s) (view_of (r_store e))) by exact (later_veq _ _ _ L1 Ve).
    assert (Cx : forall ty, coming s ty -> v_service (view_of (r_store e)) ty <> None).
    { intros ty H. destruct (Ve ty) as (_ & -> & _). apply C1, H. }
    assert (H1 : hist s s1 [e]).
    { split; auto.
      - exact (grows_trans _ _ _ Gx Gs).
      - exact (later_trans _ _ _ Lx Ls).
      - intros ty H. apply (writes_coming _ _ _ Wr). left. apply Cx, H.
      - intros e' [<-|[]]. auto.
      - intros l1 e1 l2 e2 ty E. destruct l1 as [|x [|y l1]]; try discriminate E. injection E as <- <-. intros [].
      - intros e' ty [<-|[]]. apply Pu. }
    assert (F2' : Forall (comp_ok s1) t) by (eapply Forall_impl; [|exact F2]; intros; eapply comp_ok_grows; [apply (hi_gr _ _ _ H1)|assumption]).
    destruct (IH s1 Ws F2') as [(s' & kept & log & -> & H & P & K & Z)|[-> N]]; cbn [bind].
    + left. exists s', kept, (e :: log). split; [reflexivity|].
      split; [exact (hist_app _ _ _ [e] _ H1 H)|].
      split; [apply (parts_app [c] [] [e] t kept log); [|exact P]|].
      { split; [cbn; rewrite (proj1 En); reflexivity|intros c' []|]. intros e' [<-|[]]. exists c. split; [left; reflexivity|exact En]. }
      split; [exact K|discriminate].
    + right. split; [reflexivity|]. intros Fi. inversion Fi; subst. contradiction.
  - right. split; [reflexivity|]. intros Fi. inversion Fi as [|? ? [Hc _] _]; subst. contradiction.
Qed.

(** ** The dispatch loop *)
Lemma core_ok dbg : forall fuel cs s drv, wf s -> Forall (comp_ok s) cs -> (length cs + length drv < fuel)%nat ->
  (exists s' kept drv' log, core_dispatcher fuel dbg s cs drv = Some (Ok (s', kept, drv', log)) /\ hist s s' log /\ parts cs kept log
     /\ Forall (comp_ok s') kept /\ Forall (waiting s') kept /\ (length drv' <= length drv)%nat /\ (kept = [] \/ s_deferred s' = None))
  \/ (core_dispatcher fuel dbg s cs drv = Some Panic /\ ~ Forall (fine dbg) cs).
Proof.
  induction fuel as [|f IH]; intros cs s drv W F L; [lia|].
  cbn [core_dispatcher]. destruct (dispatch_ok dbg cs s W F) as [(s1 & kept & log & -> & H & P & K & Z)|[-> N]]; [|right; auto].
  pose proof (parts_length _ _ _ P) as Hl.
  assert (Again : forall drv', (length kept + length drv' < f)%nat ->
     (exists s' k2 d2 log', match core_dispatcher f dbg s1 kept drv' with
        | Some (Ok (s2, k2, d2, log2)) => Some (Ok (s2, k2, d2, log ++ log2)) | x => x end = Some (Ok (s', k2, d2, log'))
        /\ hist s s' log' /\ parts cs k2 log' /\ Forall (comp_ok s') k2 /\ Forall (waiting s') k2 /\ (length d2 <= length drv')%nat
        /\ (k2 = [] \/ s_deferred s' = None))
     \/ (match core_dispatcher f dbg s1 kept drv' with
        | Some (Ok (s2, k2, d2, log2)) => Some (Ok (s2, k2, d2, log ++ log2)) | x => x end = Some Panic /\ ~ Forall (fine dbg) cs)).
  { intros drv' Ld. destruct (IH kept s1 drv' (hi_wf _ _ _ H) K Ld) as [(s2 & k2 & d2 & log2 & -> & H2 & P2 & K2 & Wk & Le & De)|[-> N]].
    - left. exists s2, k2, d2, (log ++ log2). split; [reflexivity|]. split; [exact (hist_app _ _ _ _ _ H H2)|].
      split; [exact (parts_seq _ _ _ _ _ P P2)|]. auto.
    - right. split; [reflexivity|]. intros Fi. apply N, Forall_forall. intros c' Hc. destruct (pa_same _ _ _ P c' Hc) as (c & Hin & Sm).
      apply (same_fine _ _ _ Sm). rewrite Forall_forall in Fi. apply Fi, Hin. }
  destruct (Nat.eqb_spec (length kept) (length cs)) as [E|E]; cbn [negb].
  2:{ destruct (Again drv) as [(s2 & k2 & d2 & log2 & A & B)|A]; [lia|left|right; exact A]. exists s2, k2, d2, log2. auto. }
  assert (El : log = []) by (destruct log; [reflexivity|cbn in Hl; lia]).
  assert (Wk : Forall (waiting s1) kept /\ (kept = [] \/ s_deferred s1 = None)).
  { destruct (Z El) as [[-> ->]|[-> Wk]]; [destruct kept; [split; [constructor|auto]|cbn in E; lia]|].
    split; [exact Wk|right]. apply apply_deferred_ok, W. }
  destruct Wk as [Wk De].
  destruct drv as [|[|] d].
  - left. exists s1, kept, [], log. split; [reflexivity|]. auto 10.
  - destruct (Again d) as [(s2 & k2 & d2 & log2 & A & B1 & B2 & B3 & B4 & B5 & B6)|A]; [cbn in L; lia|left|right; exact A].
    exists s2, k2, d2, log2. split; [exact A|]. do 4 (split; [assumption|]). split; [cbn; lia|exact B6].
  - left. exists s1, kept, d, log. split; [reflexivity|]. do 4 (split; [assumption|]). split; [cbn; lia|exact De].
Qed.

(** ** HOBs *)
Section Start.
Variables (default : N -> N) (hob_guid : N -> N) (hob_parse : N -> N -> N).

Lemma put_hobs_veq data t : forall v w, veq v w ->
  veq (fold_left (fun v ty => put_hob v ty (hob_parse ty data)) t v) (fold_left (fun v ty => put_hob v ty (hob_parse ty data)) t w).
Proof. induction t as [|x t IH]; intros v w V; [exact V|]. cbn. apply IH, put_hob_veq, V. Qed.
Lemma run_parsers_ok data : forall tys s, wf s -> exists s', run_parsers hob_parse s tys data = Ok s' /\ wf s' /\ grows s s'
  /\ veq (view_of s') (fold_left (fun v ty => put_hob v ty (hob_parse ty data)) tys (view_of s)) /\ s_parsers s' = s_parsers s /\ s_deferred s' = s_deferred s.
Proof.
  induction tys as [|ty t IH]; intros s W; cbn [run_parsers].
  { exists s. split; [reflexivity|]. split; [exact W|]. split; [apply grows_refl|]. split; [apply veq_refl|auto]. }
  destruct (add_hob_ok s ty (hob_parse ty data) W) as (s1 & E1 & W1 & G1 & V1 & P1 & D1). rewrite E1. cbn [bind].
  destruct (IH s1 W1) as (s2 & E2 & W2 & G2 & V2 & P2 & D2). rewrite E2. exists s2. split; [reflexivity|]. split; [exact W2|].
  split; [exact (grows_trans _ _ _ G1 G2)|]. split; [|split; congruence].
  eapply veq_trans; [exact V2|]. cbn [fold_left]. apply put_hobs_veq, V1.
Qed.
Lemma put_hobs_view data tys : forall v, NoDup tys -> forall t,
  let w := fold_left (fun v ty => put_hob v ty (hob_parse ty data)) tys v in
  v_config w t = v_config v t /\ v_service w t = v_service v t /\ v_hob w t = v_hob v t ++ (if in_dec N.eq_dec t tys then [hob_parse t data] else []).
Proof.
  induction tys as [|ty tys IH]; intros v ND t; cbn [fold_left].
  { cbn. rewrite app_nil_r. auto. }
  inversion ND as [|? ? Ni ND']; subst. destruct (IH (put_hob v ty (hob_parse ty data)) ND' t) as (A & B & C).
  cbn zeta. rewrite A, B, C. split; [reflexivity|]. split; [reflexivity|].
  assert (Hc : In t (ty :: tys) <-> ty = t \/ In t tys) by reflexivity.
  destruct (in_dec N.eq_dec t (ty :: tys)) as [H1|H1]; destruct (in_dec N.eq_dec t tys) as [H2|H2];
    cbn [put_hob v_hob]; unfold at_type; destruct (N.eqb_spec t ty) as [E|E]; try (subst t; contradiction); try reflexivity; try tauto.
  - subst t. rewrite app_nil_r. reflexivity.
  - apply Hc in H1. destruct H1 as [H1|H1]; [elim E; auto|contradiction].
  - subst t. tauto.
Qed.

Lemma parse_hobs_ok W : forall hobs s, wf s -> pok hob_guid s W -> exists s', parse_hobs hob_parse s hobs = Ok s' /\ wf s' /\ grows s s'
  /\ s_deferred s' = s_deferred s
  /\ forall t, v_config (view_of s') t = v_config (view_of s) t /\ v_service (view_of s') t = v_service (view_of s) t
     /\ (W t -> v_hob (view_of s') t = v_hob (view_of s) t ++ hobs_for hob_guid hob_parse t hobs)
     /\ (~ W t -> v_hob (view_of s') t = v_hob (view_of s) t).
Proof.
  induction hobs as [|[g data] hobs IH]; intros s Ws P; cbn [parse_hobs].
  { exists s. split; [reflexivity|]. split; [exact Ws|]. split; [apply grows_refl|]. split; [reflexivity|]. intros t.
    split; [reflexivity|]. split; [reflexivity|]. split; [|auto]. cbn. rewrite app_nil_r. auto. }
  set (tys := match om_get (s_parsers s) g with Some m => om_keys m | None => [] end).
  assert (ND : NoDup tys).
  { unfold tys. destruct (om_get (s_parsers s) g) as [m|] eqn:E; [|constructor]. apply om_keys_nodup. exact (po_m _ _ _ P _ _ E). }
  assert (Kt : forall t, In t tys <-> g = hob_guid t /\ W t).
  { intros t. rewrite <- (po_k _ _ _ P). unfold tys. destruct (om_get (s_parsers s) g) as [m|].
    - split; [intros H; exists m; auto|intros (m' & E & H); congruence].
    - split; [intros []|intros (m' & E & H); discriminate]. }
  destruct (run_parsers_ok data tys s Ws) as (s1 & -> & W1 & G1 & V1 & P1 & D1). cbn [bind].
  destruct (IH s1 W1 (pok_same _ _ _ _ P1 P)) as (s2 & -> & W2 & G2 & D2 & V2).
  exists s2. split; [reflexivity|]. split; [exact W2|]. split; [exact (grows_trans _ _ _ G1 G2)|]. split; [congruence|].
  intros t. destruct (V2 t) as (A & B & C & D). destruct (V1 t) as (A1 & B1 & C1).
  destruct (put_hobs_view data tys (view_of s) ND t) as (A0 & B0 & C0). cbn zeta in A0, B0, C0.
  split; [congruence|]. split; [congruence|]. split.
  - intros Wt. rewrite (C Wt), C1, C0, <- app_assoc. f_equal. unfold hobs_for. cbn [filter fst].
    destruct (N.eqb_spec g (hob_guid t)) as [E|E]; destruct (in_dec N.eq_dec t tys) as [Hi|Hi]; cbn; try reflexivity.
    + elim Hi. apply Kt. auto.
    + apply Kt in Hi. tauto.
  - intros Nt. rewrite (D Nt), C1, C0. destruct (in_dec N.eq_dec t tys) as [Hi|Hi]; [apply Kt in Hi; tauto|apply app_nil_r].
Qed.

(** ** Building *)
Record built_ok (s : storage) (cs : list comp) (bs : list build) : Prop := {
  bo_wf : wf s;
  bo_cs : Forall (comp_ok s) cs;
  bo_v : veq (view_of s) (built default bs);
  bo_p : pok hob_guid s (wants_hob bs);
  bo_d : s_deferred s = None;
  bo_id : Permutation (map c_id (comps_of bs)) (map c_id cs);
  bo_same : forall c', In c' cs -> exists c, In c (comps_of bs) /\ same c c' }.

Lemma built_new : built_ok new_storage [] [].
Proof.
  split.
  - apply wf_new.
  - constructor.
  - apply veq_refl.
  - split.
    + apply om_sorted_nil.
    + intros g m H. discriminate H.
    + intros g ty. split; [intros (m & H & _); discriminate H|intros (_ & c & [] & _)].
  - reflexivity.
  - constructor.
  - intros c [].
Qed.

Lemma build_view_veq v w b : veq v w -> veq (build_view default v b) (build_view default w b).
Proof.
  intros H. destruct b; cbn; try (apply init_leaves_veq, H); [apply put_config_veq, H|apply put_service_veq, H].
Qed.
Lemma comps_snoc bs b : comps_of (bs ++ [b]) = comps_of bs ++ comp_of b.
Proof. unfold comps_of. rewrite flat_map_app. cbn. rewrite app_nil_r. reflexivity. Qed.
Lemma built_snoc bs b : built default (bs ++ [b]) = build_view default (built default bs) b.
Proof. unfold built. rewrite fold_left_app. reflexivity. Qed.
Lemma set_state_same c sts : same c (set_state c sts).
Proof. repeat split. Qed.

Lemma wants_snoc bs b c ty : comp_of b = [c] -> (wants (wants_hob bs) (all_leaves (c_params c)) ty <-> wants_hob (bs ++ [b]) ty).
Proof.
  intros E. unfold wants, wants_hob. rewrite comps_snoc, E. split.
  - intros [(x & X & Y)|H]; [exists x; split; [apply in_or_app; auto|exact Y]|exists c; split; [apply in_or_app; right; left; reflexivity|exact H]].
  - intros (x & X & Y). apply in_app_or in X. destruct X as [X|[<-|[]]]; [left; exists x; auto|right; exact Y].
Qed.

Lemma build_step_ok dbg bs s cs b : built_ok s cs bs ->
  (exists s' cs', build_step default hob_guid dbg (s, cs) b = Ok (s', cs') /\ built_ok s' cs' (bs ++ [b]) /\ (s_boot s' = s_boot s /\ s_runtime s' = s_runtime s)
     /\ (dbg = true -> forall c, In c (comp_of b) -> compatible (c_params c)))
  \/ (dbg = true /\ build_step default hob_guid dbg (s, cs) b = Panic /\ exists c, In c (comp_of b) /\ ~ compatible (c_params c)).
Proof.
  intros [W F V P D I Sm].
  assert (Snoc : forall c, comp_of b = [c] -> forall s1 sts (cs' : list comp), Permutation cs' (cs ++ [set_state c sts]) ->
    wf s1 -> grows s s1 -> veq (view_of s1) (init_view default (view_of s) (c_params c)) -> comp_ok s1 (set_state c sts) ->
    pok hob_guid s1 (wants (wants_hob bs) (all_leaves (c_params c))) -> s_deferred s1 = s_deferred s ->
    build_view default (built default bs) b = init_view default (built default bs) (c_params c) -> built_ok s1 cs' (bs ++ [b])).
  { intros c Hc s1 sts cs' Pm W1 G1 V1 C1 P1 D1 Eb. split; auto.
    - eapply Permutation_Forall; [apply Permutation_sym; exact Pm|]. apply Forall_app. split; [|constructor; [exact C1|constructor]].
      eapply Forall_impl; [|exact F]. intros; eapply comp_ok_grows; eauto.
    - rewrite built_snoc, Eb. eapply veq_trans; [exact V1|]. apply init_leaves_veq, V.
    - eapply pok_ext; [exact P1|]. intros ty. apply wants_snoc, Hc.
    - congruence.
    - rewrite comps_snoc, Hc, Pm, !map_app, I. reflexivity.
    - intros c' Hc'. rewrite comps_snoc, Hc. apply (Permutation_in _ Pm) in Hc'. apply in_app_or in Hc'. destruct Hc' as [Hc'|[<-|[]]].
      + destruct (Sm c' Hc') as (x & X & Y). exists x. split; [apply in_or_app; auto|exact Y].
      + exists c. split; [apply in_or_app; right; left; reflexivity|apply set_state_same]. }
  assert (Plain : forall s1, comp_of b = [] -> wf s1 -> grows s s1 -> veq (view_of s1) (build_view default (view_of s) b) -> s_parsers s1 = s_parsers s ->
    s_deferred s1 = s_deferred s -> built_ok s1 cs (bs ++ [b])).
  { intros s1 Hc W1 G1 V1 P1 D1. split; auto.
    - eapply Forall_impl; [|exact F]. intros; eapply comp_ok_grows; eauto.
    - rewrite built_snoc. eapply veq_trans; [exact V1|]. apply build_view_veq, V.
    - eapply pok_ext; [exact (pok_same _ _ _ _ P1 P)|]. intros ty. unfold wants_hob. rewrite comps_snoc, Hc, app_nil_r. reflexivity.
    - congruence.
    - rewrite comps_snoc, Hc, app_nil_r. exact I.
    - rewrite comps_snoc, Hc, app_nil_r. exact Sm. }
  destruct b as [c|c|ty x|ty x]; cbn [build_step].
  - destruct (initialize_ok default hob_guid dbg s c _ W P) as [(E & -> & N)|(s1 & c1 & -> & Cp & W1 & G1 & V1 & C1 & P1 & D1 & sts & ->)]; cbn [bind].
    { right. split; [exact E|]. split; [reflexivity|]. exists c. split; [left; reflexivity|exact N]. }
    left. eexists _, _. split; [reflexivity|]. split; [|split; [split; apply G1|intros Hd c' [<-|[]]; auto]].
    apply (Snoc c eq_refl s1 sts); auto.
  - destruct (initialize_ok default hob_guid dbg s c _ W P) as [(E & -> & N)|(s1 & c1 & -> & Cp & W1 & G1 & V1 & C1 & P1 & D1 & sts & ->)]; cbn [bind].
    { right. split; [exact E|]. split; [reflexivity|]. exists c. split; [left; reflexivity|exact N]. }
    left. eexists _, _. split; [reflexivity|]. split; [|split; [split; apply G1|intros Hd c' [<-|[]]; auto]].
    apply (Snoc c eq_refl s1 sts); auto. apply (Permutation_app_comm [set_state c sts] cs).
  - left. eexists _, _. split; [reflexivity|]. destruct (add_config_ok s ty x W) as (W1 & G1 & V1).
    split; [|split; [split; apply G1|intros _ c []]]. apply Plain; auto; [|apply add_config_deferred].
    unfold add_config. destruct (register _ _). reflexivity.
  - left. eexists _, _. split; [reflexivity|]. destruct (add_service_ok s ty x W) as (W1 & G1 & V1).
    split; [|split; [split; apply G1|intros _ c []]]. apply Plain; auto; [|apply add_service_deferred].
    unfold add_service. destruct (register _ _). reflexivity.
Qed.

Lemma build_all_ok dbg : forall more bs s cs, built_ok s cs bs ->
  (exists s' cs', build_all default hob_guid dbg (s, cs) more = Ok (s', cs') /\ built_ok s' cs' (bs ++ more)
     /\ (dbg = true -> forall c, In c (comps_of more) -> compatible (c_params c)))
  \/ (dbg = true /\ build_all default hob_guid dbg (s, cs) more = Panic /\ exists c, In c (comps_of more) /\ ~ compatible (c_params c)).
Proof.
  induction more as [|b more IH]; intros bs s cs H; cbn [build_all].
  { left. exists s, cs. rewrite app_nil_r. split; [reflexivity|]. split; [exact H|]. intros _ c []. }
  destruct (build_step_ok dbg bs s cs b H) as [(s1 & cs1 & -> & H1 & _ & K)|(E & -> & c & Hc & N)]; cbn [bind].
  2:{ right. split; [exact E|]. split; [reflexivity|]. exists c. split; [apply in_or_app; auto|exact N]. }
  destruct (IH _ _ _ H1) as [(s2 & cs2 & -> & H2 & K2)|(E & -> & c & Hc & N)].
  - left. exists s2, cs2. split; [reflexivity|]. rewrite <- app_assoc in H2. split; [exact H2|].
    intros Hd c Hc. apply in_app_or in Hc. destruct Hc as [Hc|Hc]; auto.
  - right. split; [exact E|]. split; [reflexivity|]. exists c. split; [apply in_or_app; auto|exact N].
Qed.

(** ** Start *)
Lemma set_tables_ok s : wf s -> wf (set_services_tables s) /\ veq (view_of (set_services_tables s)) (view_of s).
Proof. intros [A B C D E]. split; [split; auto|apply veq_refl]. Qed.

Lemma init_leaves_hobs ls : forall v t, v_hob (fold_left (init_leaf default) ls v) t = v_hob v t.
Proof.
  induction ls as [|p ls IH]; intros v t; [reflexivity|]. cbn. rewrite IH.
  destruct p; cbn; try reflexivity; [destruct (v_config v ty); reflexivity|destruct (v_config v ty) as [[? ?]|]; reflexivity].
Qed.
Lemma built_hobs bs t : v_hob (built default bs) t = [].
Proof.
  unfold built. cut (forall v, v_hob (fold_left (build_view default) bs v) t = v_hob v t); [intros H; rewrite H; reflexivity|].
  induction bs as [|b bs IH]; intros v; [reflexivity|]. cbn. rewrite IH. destruct b; cbn; try reflexivity; apply init_leaves_hobs.
Qed.
Lemma st_ok_idx s s' : s_config_idx s' = s_config_idx s -> s_service_idx s' = s_service_idx s -> s_hob_idx s' = s_hob_idx s ->
  forall p x, st_ok s p x -> st_ok s' p x.
Proof.
  intros A B C. induction p; intros x; cbn; rewrite ?A, ?B, ?C; auto. destruct x; auto. intros [? ?]. auto.
Qed.

(** Everything a completed or failed start guarantees. *)
Lemma start_ok fuel dbg bs hobs drv :
  (length (comps_of bs) + length drv < fuel)%nat ->
  (exists s cs log, start default hob_guid hob_parse fuel dbg bs hobs drv = Some (Ok (s, cs, log))
     /\ wf s /\ parts (comps_of bs) cs log /\ Forall (comp_ok s) cs /\ Forall (waiting s) cs
     /\ (dbg = true -> forall c, In c (comps_of bs) -> compatible (c_params c))
     /\ (forall ty x, v_config (view_of s) ty <> Some (false, x))
     /\ (s_boot s = true /\ s_runtime s = true)
     /\ (forall ty, v_hob (view_of s) ty = [] -> wants_hob bs ty -> hobs_for hob_guid hob_parse ty hobs = [])
     /\ (forall e ty, In e log -> wants_hob bs ty -> v_hob (view_of (r_store e)) ty = hobs_for hob_guid hob_parse ty hobs)
     /\ (forall l1 e1 l2 e2 ty, log = l1 ++ e1 :: l2 -> In e2 l2 -> published e1 ty -> v_service (view_of (r_store e2)) ty <> None)
     /\ (forall e ty, In e log -> published e ty -> cs <> [] -> v_service (view_of s) ty <> None)
     /\ (forall e ty, In e log -> v_service (built default bs) ty <> None -> v_service (view_of (r_store e)) ty <> None))
  \/ (start default hob_guid hob_parse fuel dbg bs hobs drv = Some Panic
      /\ ((dbg = true /\ exists c, In c (comps_of bs) /\ ~ compatible (c_params c)) \/ ~ Forall (fine dbg) (comps_of bs))).
Proof.
  intros L. unfold start.
  destruct (build_all_ok dbg bs [] new_storage [] built_new) as [(s0 & cs0 & -> & B & K)|(E & -> & c & Hc & N)].
  2:{ right. split; [reflexivity|]. left. split; [exact E|]. exists c. auto. }
  cbn [app] in B. destruct B as [W0 F0 V0 P0 D0 I0 Sm0].
  destruct (set_tables_ok s0 W0) as [Wt Vt]. set (st := set_services_tables s0) in *.
  assert (Ft : Forall (comp_ok st) cs0).
  { eapply Forall_impl; [|exact F0]. intros c (sts & Ec & Fc). exists sts. split; [exact Ec|]. clear Ec.
    induction Fc; constructor; auto. apply (st_ok_idx s0); auto. }
  assert (Pt : pok hob_guid st (wants_hob bs)) by (apply (pok_same _ s0); [reflexivity|exact P0]).
  assert (Hv : forall t, v_hob (view_of st) t = []).
  { intros t. destruct (Vt t) as (_ & _ & ->). destruct (V0 t) as (_ & _ & ->). apply built_hobs. }
  destruct (parse_hobs_ok (wants_hob bs) hobs st Wt Pt) as (s1 & -> & W1 & G1 & D1 & V1).
  assert (F1 : Forall (comp_ok s1) cs0) by (eapply Forall_impl; [|exact Ft]; intros; eapply comp_ok_grows; eauto).
  assert (Len : length cs0 = length (comps_of bs)) by (apply Permutation_length in I0; rewrite !map_length in I0; auto).
  assert (Pp : parts (comps_of bs) cs0 []) by (split; [exact I0|exact Sm0|intros e []]).
  assert (Nf : forall cs log, parts cs0 cs log -> ~ Forall (fine dbg) cs -> ~ Forall (fine dbg) (comps_of bs)).
  { intros cs log Pc N Fi. apply N, Forall_forall. intros c' Hc. destruct (pa_same _ _ _ Pc c' Hc) as (c & Hin & Sm).
    apply (same_fine _ _ _ Sm). destruct (Sm0 c Hin) as (c0 & Hin0 & Sm1). apply (same_fine _ _ _ Sm1). rewrite Forall_forall in Fi. apply Fi, Hin0. }
  destruct (core_ok dbg fuel cs0 s1 drv W1 F1) as [(s2 & cs2 & drv2 & log1 & -> & H2 & P2 & F2 & Wk2 & Le2 & _)|[-> N]]; [lia| |].
  2:{ right. split; [reflexivity|]. right. exact (Nf cs0 [] (parts_nil cs0) N). }
  destruct (lock_configs_ok s2 (hi_wf _ _ _ H2)) as (Wl & Gl & Vl). set (sl := lock_configs s2) in *.
  assert (Hl : hist s2 sl []).
  { split.
    - exact Wl.
    - exact Gl.
    - exact (later_veq _ _ _ (later_lock _) Vl).
    - intros ty [H|H]; [left|right; exact H]. destruct (Vl ty) as (_ & -> & _). exact H.
    - intros e [].
    - intros l1 e1 l2 e2 ty E. destruct l1; discriminate E.
    - intros e ty []. }
  assert (Fl : Forall (comp_ok sl) cs2) by (eapply Forall_impl; [|exact F2]; intros; eapply comp_ok_grows; eauto).
  pose proof (parts_length _ _ _ P2) as Len2.
  destruct (core_ok dbg fuel cs2 sl drv2 Wl Fl) as [(s3 & cs3 & drv3 & log2 & -> & H3 & P3 & F3 & Wk3 & Le3 & De3)|[-> N]]; [lia| |].
  2:{ right. split; [reflexivity|]. right. exact (Nf cs2 log1 P2 N). }
  left. exists s3, cs3, (log1 ++ log2). split; [reflexivity|].
  pose proof (hist_app _ _ _ _ _ H2 (hist_app _ _ _ _ _ Hl H3)) as H. cbn [app] in H.
  split; [exact (hi_wf _ _ _ H)|].
  split; [exact (parts_seq _ _ _ _ _ Pp (parts_seq _ _ _ _ _ P2 P3))|].
  split; [exact F3|]. split; [exact Wk3|]. split; [exact K|].
  split.
  { intros ty x Hx. destruct (la_l _ _ (hi_la _ _ _ H3) _ _ Hx) as [y Hy]. destruct (Vl ty) as (E & _ & _). rewrite Hy in E. cbn in E.
    destruct (cfgs s2 ty); discriminate E. }
  split.
  { rewrite (gr_b _ _ (hi_gr _ _ _ H)), (gr_b _ _ G1), (gr_r _ _ (hi_gr _ _ _ H)), (gr_r _ _ G1). split; reflexivity. }
  assert (Hb : forall ty, wants_hob bs ty -> v_hob (view_of s1) ty = hobs_for hob_guid hob_parse ty hobs).
  { intros ty Hw. destruct (V1 ty) as (_ & _ & E & _). rewrite (E Hw), Hv. reflexivity. }
  split.
  { intros ty E Hw. rewrite <- (Hb ty Hw), <- (la_h _ _ (hi_la _ _ _ H)). exact E. }
  split.
  { intros e ty He Hw. destruct (hi_e _ _ _ H e He) as (_ & Lx & _). rewrite (la_h _ _ Lx). apply Hb, Hw. }
  split; [exact (hi_p _ _ _ H)|].
  split.
  { intros e ty He Pu Nn. destruct De3 as [->|De]; [elim Nn; reflexivity|]. destruct (hi_q _ _ _ H e ty He Pu) as [X|[x X]]; [exact X|].
    unfold queue in X. rewrite De in X. destruct X. }
  intros e ty He Hs. destruct (hi_e _ _ _ H e He) as (_ & Lx & _). apply (la_s _ _ Lx).
  destruct (V1 ty) as (_ & -> & _). destruct (Vt ty) as (_ & -> & _). destruct (V0 ty) as (_ & -> & _). exact Hs.
Qed.
End Start.
