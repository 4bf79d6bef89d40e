(** Running and dispatching components. *)
From Verif Require Import Base.Prelude Base.Omap Comp.Model Comp.Spec Comp.Proofs Comp.Params.
From Coq Require Import Permutation.
Local Open Scope N_scope.

(** ** What never goes away while components run *)
Record later (v w : view) : Prop := {
  la_s : forall ty, v_service v ty <> None -> v_service w ty <> None;
  la_c : forall ty, v_config v ty <> None -> v_config w ty <> None;
  la_h : forall ty, v_hob w ty = v_hob v ty;
  la_l : forall ty x, v_config w ty = Some (false, x) -> exists y, v_config v ty = Some (false, y) }.
Lemma later_refl v : later v v.
Proof. split; auto. intros ty x H. exists x. exact H. Qed.
Lemma later_trans u v w : later u v -> later v w -> later u w.
Proof.
  intros [A1 A2 A3 A4] [B1 B2 B3 B4]. split; auto.
  - intros ty. rewrite B3. apply A3.
  - intros ty x H. destruct (B4 _ _ H) as [y Hy]. apply (A4 _ _ Hy).
Qed.
Lemma later_veq v w w' : later v w -> veq w' w -> later v w'.
Proof.
  intros [A B C D] E. split; intros ty; destruct (E ty) as (E1 & E2 & E3); rewrite ?E1, ?E2, ?E3; auto. apply D.
Qed.
Lemma later_veq_l v v' w : later v w -> veq v' v -> later v' w.
Proof.
  intros [A B C D] E. split; intros ty; destruct (E ty) as (E1 & E2 & E3); rewrite ?E1, ?E2, ?E3; auto. apply D.
Qed.
Lemma later_put_config v ty x : fst x = true -> later v (put_config v ty x).
Proof.
  intros Hx. split; auto; intros t; cbn; unfold at_type; destruct (t =? ty); auto; try discriminate.
  - intros y H. injection H as H. rewrite H in Hx. discriminate.
  - intros y H. exists y. exact H.
Qed.
Lemma later_put_same v ty l x y : v_config v ty = Some (l, x) -> later v (put_config v ty (l, y)).
Proof.
  intros Hx. split; auto; intros t; cbn; unfold at_type; destruct (N.eqb_spec t ty) as [E|E]; auto; try discriminate.
  - intros z H. injection H as -> ->. subst t. exists x. exact Hx.
  - intros z H. exists z. exact H.
Qed.
Lemma later_put_service v ty x : later v (put_service v ty x).
Proof.
  split; auto; intros t; cbn; unfold at_type; try (destruct (t =? ty); auto; discriminate).
  intros y H. exists y. exact H.
Qed.
Lemma later_cmds q : forall v, later v (fold_left cmd_view q v).
Proof.
  induction q as [|c q IH]; intros v; [apply later_refl|]. cbn. eapply later_trans; [|apply IH].
  destruct c; [apply later_put_config; reflexivity|apply later_put_service].
Qed.
Lemma later_lock v : later v (lock_view v).
Proof.
  split; auto; intros ty; cbn; destruct (v_config v ty); cbn; auto; try discriminate.
Qed.

Lemma cmds_present q : forall v ty x, In (CmdService ty x) q -> v_service (fold_left cmd_view q v) ty <> None.
Proof.
  induction q as [|c q IH]; intros v ty x H; [destruct H|]. cbn. destruct H as [->|H]; [|exact (IH _ _ _ H)].
  apply (la_s _ _ (later_cmds q _)). cbn. unfold at_type. rewrite N.eqb_refl. discriminate.
Qed.

(** A service that is there or on its way. *)
Definition coming (s : storage) (ty : N) : Prop := v_service (view_of s) ty <> None \/ exists x, In (CmdService ty x) (queue s).

Lemma apply_deferred_later s : wf s -> later (view_of s) (view_of (apply_deferred s)) /\ (forall ty, coming s ty -> v_service (view_of (apply_deferred s)) ty <> None).
Proof.
  intros W. destruct (apply_deferred_ok s W) as (W1 & G & V & D). split.
  - eapply later_veq; [apply later_cmds|exact V].
  - intros ty H. destruct (V ty) as (_ & -> & _). destruct H as [H|[x H]].
    + apply (la_s _ _ (later_cmds _ _)), H.
    + exact (cmds_present _ _ _ _ H).
Qed.

(** ** Effects *)
Definition writes_ok (s s' : storage) : Prop :=
  wf s' /\ grows s s' /\ later (view_of s) (view_of s') /\ (exists more, queue s' = queue s ++ more) /\ (s_deferred s <> None -> s_deferred s' <> None).
Lemma writes_ok_refl s : wf s -> writes_ok s s.
Proof. intros W. split; [exact W|]. split; [apply grows_refl|]. split; [apply later_refl|]. split; [exists []; rewrite app_nil_r; reflexivity|auto]. Qed.
Lemma writes_ok_trans a b c : writes_ok a b -> writes_ok b c -> writes_ok a c.
Proof.
  intros (A1 & A2 & A3 & [m1 A4] & A5) (B1 & B2 & B3 & [m2 B4] & B5).
  split; [exact B1|]. split; [exact (grows_trans _ _ _ A2 B2)|]. split; [exact (later_trans _ _ _ A3 B3)|].
  split; [exists (m1 ++ m2); rewrite B4, A4, app_assoc; reflexivity|auto].
Qed.
Lemma queue_same s s' : s_deferred s' = s_deferred s -> (exists more, queue s' = queue s ++ more) /\ (s_deferred s <> None -> s_deferred s' <> None).
Proof. intros E. unfold queue. rewrite E. split; [exists []; rewrite app_nil_r; reflexivity|auto]. Qed.

Lemma add_config_deferred s ty x : s_deferred (add_config s ty x) = s_deferred s.
Proof. unfold add_config. destruct (register _ _). reflexivity. Qed.
Lemma add_service_deferred s ty x : s_deferred (add_service s ty x) = s_deferred s.
Proof. unfold add_service. destruct (register _ _). reflexivity. Qed.
Lemma upd_config_deferred s i f : s_deferred (upd_config s i f) = s_deferred s.
Proof. unfold upd_config. destruct (sv_get _ _); reflexivity. Qed.

Lemma at_ty_ok s ty f : wf s -> (forall c, cfg_ty ty c -> cfg_ty ty (f c)) -> (forall c, cf_locked (f c) = true \/ cf_locked (f c) = cf_locked c) ->
  writes_ok s (match om_get (s_config_idx s) ty with Some i => upd_config s i f | None => s end).
Proof.
  intros W Hf Hl. destruct (om_get (s_config_idx s) ty) as [i|] eqn:R; [|apply writes_ok_refl, W].
  destruct (upd_config_ok s ty i f W R Hf) as (c & Hc & A & B & V).
  split; [exact A|]. split; [exact B|]. split; [|apply queue_same, upd_config_deferred].
  eapply later_veq; [|exact V]. destruct (Hl c) as [E|E].
  - apply later_put_config. exact E.
  - unfold cview. rewrite E. eapply later_put_same. cbn. rewrite Hc. reflexivity.
Qed.

Lemma run_effect_ok gs s e : wf s -> writes_ok s (run_effect gs s e).
Proof.
  intros W. destruct e; cbn [run_effect].
  - destruct (granted _ gs); [|apply writes_ok_refl, W]. apply at_ty_ok; auto.
  - destruct (granted _ gs); [|apply writes_ok_refl, W]. apply at_ty_ok; auto.
  - destruct (granted _ gs); [|apply writes_ok_refl, W]. destruct (s_deferred s) as [q|] eqn:E; [|apply writes_ok_refl, W].
    destruct (with_deferred_ok s (Some (q ++ [c])) W) as (A & B & V).
    split; [exact A|]. split; [exact B|]. split; [exact (later_veq _ _ _ (later_refl _) V)|]. split; [|discriminate].
    exists [c]. unfold queue. cbn. rewrite E. reflexivity.
  - destruct (granted _ gs); [|apply writes_ok_refl, W]. destruct (add_config_ok s ty v W) as (A & B & V).
    split; [exact A|]. split; [exact B|]. split; [|apply queue_same, add_config_deferred].
    exact (later_veq _ _ _ (later_put_config _ _ (true, v) eq_refl) V).
  - destruct (granted _ gs); [|apply writes_ok_refl, W]. destruct (add_service_ok s ty v W) as (A & B & V).
    split; [exact A|]. split; [exact B|]. split; [|apply queue_same, add_service_deferred].
    exact (later_veq _ _ _ (later_put_service _ _ _) V).
  - destruct (granted _ gs); [|apply writes_ok_refl, W]. destruct (lock_configs_ok s W) as (A & B & V).
    split; [exact A|]. split; [exact B|]. split; [|apply queue_same; reflexivity].
    exact (later_veq _ _ _ (later_lock _) V).
  - destruct (granted _ gs); [|apply writes_ok_refl, W]. apply at_ty_ok; auto.
  - destruct (granted _ gs); [|apply writes_ok_refl, W]. apply at_ty_ok; auto.
Qed.
Lemma run_effects_ok gs es : forall s, wf s -> writes_ok s (fold_left (run_effect gs) es s).
Proof.
  induction es as [|e es IH]; intros s W; [apply writes_ok_refl, W|]. cbn.
  pose proof (run_effect_ok gs s e W) as A. eapply writes_ok_trans; [exact A|]. apply IH, A.
Qed.

Lemma writes_coming s s' ty : writes_ok s s' -> coming s ty -> coming s' ty.
Proof.
  intros (_ & _ & L & [m Q] & _) [H|[x H]]; [left; apply (la_s _ _ L), H|right].
  exists x. rewrite Q. apply in_or_app. auto.
Qed.

Lemma grants_commands g : holds GCommands g -> grants_in is_commands g = true.
Proof.
  induction g; cbn; try (intros [H|[]]; discriminate); auto.
  - intros [H|H]; [discriminate|auto].
  - intros [H|[H|H]]; [discriminate|rewrite IHg1 by exact H; reflexivity|rewrite IHg2 by exact H; apply orb_true_r].
Qed.
Lemma grants_storage g : holds GStorageMut g -> grants_in is_storage_mut g = true.
Proof.
  induction g; cbn; try (intros [H|[]]; discriminate); auto.
  - intros [H|H]; [discriminate|auto].
  - intros [H|[H|H]]; [discriminate|rewrite IHg1 by exact H; reflexivity|rewrite IHg2 by exact H; apply orb_true_r].
Qed.
Lemma granted_exists f k gs : (forall g, holds k g -> grants_in f g = true) -> Exists (holds k) gs -> granted f gs = true.
Proof. intros H E. unfold granted. apply existsb_exists. apply Exists_exists in E. destruct E as (g & A & B). exists g. auto. Qed.

(** ** Fetching any parameter *)
Lemma get_param_fetched : forall p s held st g s1 h1, get_param s held p st = Ok (g, s1, h1) ->
  fetched s s1 /\ (grants_in is_commands g = true -> s_deferred s1 <> None).
Proof.
  assert (K : forall s, fetched s s) by (left; reflexivity).
  induction p; intros s held st g s1 h1 H.
  - destruct st as [i| |]; try discriminate. cbn in H. destruct (borrow s held i); try discriminate. cbn in H.
    destruct (downcast ty (cf_val a)); try discriminate. cbn in H. injection H as <- <- <-. split; [apply K|discriminate].
  - destruct st as [i| |]; try discriminate. cbn in H. destruct (borrow_mut s held i); try discriminate. cbn in H.
    destruct (downcast ty (cf_val a)); try discriminate. cbn in H. injection H as <- <- <-. split; [apply K|discriminate].
  - cbn in H. injection H as <- <- <-. destruct (s_deferred s) eqn:E.
    + split; [apply K|congruence].
    + split; [right; auto|discriminate].
  - cbn in H. injection H as <- <- <-. split; [apply K|discriminate].
  - cbn in H. injection H as <- <- <-. split; [apply K|discriminate].
  - destruct st as [i| |]; try discriminate. cbn in H. destruct (sv_get (s_services s) i); try discriminate.
    destruct (downcast ty p); try discriminate. cbn in H. injection H as <- <- <-. split; [apply K|discriminate].
  - destruct st as [i| |]; try discriminate. cbn in H. destruct (sv_get (s_hobs s) i) as [l|]; try discriminate.
    destruct (forallb _ l); try discriminate. injection H as <- <- <-. split; [apply K|discriminate].
  - cbn in H. injection H as <- <- <-. split; [apply K|discriminate].
  - cbn in H. injection H as <- <- <-. split; [apply K|discriminate].
  - cbn [get_param] in H. destruct (validate s held p st) as [b| |]; try discriminate. cbn [bind] in H. destruct b.
    + destruct (get_param s held p st) as [[[g' s'] h']| |] eqn:G; try discriminate. cbn in H. injection H as <- <- <-.
      exact (IHp _ _ _ _ _ _ G).
    + injection H as <- <- <-. split; [apply K|discriminate].
  - destruct st as [i| |x y]; try discriminate. cbn [get_param] in H.
    destruct (get_param s held p1 x) as [[[g1 s'] h']| |] eqn:G; try discriminate. cbn [bind] in H.
    destruct (get_param s' h' p2 y) as [[[g2 s2] h2]| |] eqn:G2; try discriminate. cbn [bind] in H. injection H as <- <- <-.
    destruct (IHp1 _ _ _ _ _ _ G) as [A A']. destruct (IHp2 _ _ _ _ _ _ G2) as [B B'].
    split; [exact (fetched_trans _ _ _ A B)|]. cbn. intros H. apply orb_true_iff in H. destruct H as [H|H]; [|exact (B' H)].
    specialize (A' H). destruct B as [->|[E ->]]; [exact A'|discriminate].
Qed.
Lemma get_params_fetched : forall ps s held sts gs s1, get_params s held ps sts = Ok (gs, s1) ->
  fetched s s1 /\ (granted is_commands gs = true -> s_deferred s1 <> None).
Proof.
  induction ps as [|p ps IH]; intros s held sts gs s1 H; cbn [get_params] in H.
  { injection H as <- <-. split; [left; reflexivity|discriminate]. }
  destruct sts as [|st sts]; [discriminate|].
  destruct (get_param s held p st) as [[[g s'] h']| |] eqn:G; try discriminate. cbn [bind] in H.
  destruct (get_params s' h' ps sts) as [[gs' s2]| |] eqn:G'; try discriminate. cbn [bind] in H. injection H as <- <-.
  destruct (get_param_fetched _ _ _ _ _ _ _ G) as [A A']. destruct (IH _ _ _ _ _ G') as [B B'].
  split; [exact (fetched_trans _ _ _ A B)|]. unfold granted. cbn. intros H. apply orb_true_iff in H. destruct H as [H|H]; [|exact (B' H)].
  specialize (A' H). destruct B as [->|[E ->]]; [exact A'|discriminate].
Qed.

Definition noerr {A} (r : res efi_error A) : Prop := forall e, r <> Err e.
Lemma noerr_bind {A B} (r : res efi_error A) (k : A -> res efi_error B) : noerr r -> (forall a, noerr (k a)) -> noerr (bind r k).
Proof. intros H K e. destruct r as [a|x|]; cbn; [apply K|elim (H x eq_refl)|discriminate]. Qed.
Lemma noerr_ok {A} (a : A) : noerr (@Ok efi_error A a). Proof. intros e. discriminate. Qed.
Lemma noerr_panic {A} : noerr (@Panic efi_error A). Proof. intros e. discriminate. Qed.
Lemma noerr_borrow s held i : noerr (borrow s held i).
Proof. unfold borrow. destruct (sv_get _ _); [destruct (existsb _ _)|]; intros e; discriminate. Qed.
Lemma noerr_borrow_mut s held i : noerr (borrow_mut s held i).
Proof. unfold borrow_mut. destruct (sv_get _ _); [destruct (existsb _ _)|]; intros e; discriminate. Qed.
Lemma noerr_downcast ty x : noerr (downcast ty x).
Proof. unfold downcast. destruct (_ =? _); intros e; discriminate. Qed.
#[local] Hint Resolve noerr_ok noerr_panic noerr_borrow noerr_borrow_mut noerr_downcast noerr_bind : noerr.
Lemma validate_no_err s held p st : noerr (validate s held p st).
Proof.
  destruct p, st; cbn [validate]; auto with noerr; try (apply noerr_bind; auto with noerr).
  destruct (sv_get _ _); auto with noerr.
Qed.
Lemma get_param_no_err : forall p s held st, noerr (get_param s held p st).
Proof.
  induction p; intros s held st; destruct st; cbn [get_param]; auto with noerr;
    try (apply noerr_bind; [apply validate_no_err|]; intros []; auto with noerr; apply noerr_bind; [apply IHp|]; intros [[? ?] ?]; auto with noerr);
    try (apply noerr_bind; [auto with noerr|]; intros ?; apply noerr_bind; auto with noerr).
  - destruct (sv_get _ _); auto with noerr.
  - destruct (sv_get _ _); auto with noerr. destruct (forallb _ _); auto with noerr.
  - apply noerr_bind; [apply IHp1|]. intros [[? ?] ?]. apply noerr_bind; [apply IHp2|]. intros [[? ?] ?]. apply noerr_ok.
Qed.
Lemma get_params_no_err : forall ps s held sts, noerr (get_params s held ps sts).
Proof.
  induction ps as [|p ps IH]; intros s held sts; cbn [get_params]; [apply noerr_ok|]. destruct sts as [|st sts]; [apply noerr_panic|].
  apply noerr_bind; [apply get_param_no_err|]. intros [[? ?] ?]. apply noerr_bind; [apply IH|]. intros [? ?]. apply noerr_ok.
Qed.

(** ** One component *)
Definition same (c c' : comp) : Prop :=
  c_id c' = c_id c /\ c_params c' = c_params c /\ c_body c' = c_body c /\ c_once c' = c_once c /\ c_input c' = c_input c.
Lemma same_refl c : same c c. Proof. repeat split. Qed.
Lemma same_trans a b c : same a b -> same b c -> same a c.
Proof. intros (A1&A2&A3&A4&A5) (B1&B2&B3&B4&B5). repeat split; congruence. Qed.

(** A parameter that keeps the component waiting. *)
Definition waiting (s : storage) (c : comp) : Prop :=
  exists p, In p (c_params c) /\ simple p /\ ~ ready s (view_of s) p.

(** A run that is what the component's parameters and body say. *)
Definition entry_of (c : comp) (e : run_entry) : Prop :=
  r_id e = c_id c /\ wf (r_store e) /\ r_effects e = snd (c_body c (r_store e) (r_grants e))
  /\ (Forall flat (c_params c) -> Forall2 (given (r_store e) (view_of (r_store e))) (c_params c) (r_grants e)).

Definition sound (c : comp) : Prop := c_input c = true /\ Forall flat (c_params c) /\ compatible (c_params c).

Lemma flat_simple p : flat p -> simple p.
Proof. destruct p; cbn; auto. Qed.

Inductive run_result (s : storage) (c : comp) : res efi_error (outcome * storage * comp) -> Prop :=
| RR_wait p : waiting (apply_deferred s) c -> run_result s c (Ok (Waiting, apply_deferred s, set_failed c p))
| RR_ran ok e s' c' : entry_of c e -> ok = fst (c_body c (r_store e) (r_grants e)) -> fetched (apply_deferred s) (r_store e) ->
    writes_ok (r_store e) s' -> (forall ty, published e ty -> coming s' ty) -> run_result s c (Ok (Ran ok e, s', c'))
| RR_panic : ~ sound c -> run_result s c Panic.

Lemma run_comp_cases s c : wf s -> comp_ok s c -> run_result s c (run_comp s c).
Proof.
  intros W C. destruct (apply_deferred_ok s W) as (W1 & G1 & V1 & D1).
  apply (comp_ok_grows _ _ _ G1) in C. destruct C as (sts & E & F).
  unfold run_comp. rewrite E. set (s1 := apply_deferred s) in *.
  destruct (try_validate_cases s1 W1 _ _ F) as [[-> R]|(p & -> & Hp & Sp & N)]; cbn [bind].
  2:{ apply RR_wait. exists p. auto. }
  destruct (get_params s1 [] (c_params c) sts) as [[gs s2]|e|] eqn:Gp; cbn [bind].
  - destruct (get_params_fetched _ _ _ _ _ _ Gp) as [Fe Cm]. destruct (fetched_facts _ _ Fe W1) as (W2 & G2 & V2 & Q2).
    destruct (c_input c) eqn:Ei; cbn [negb].
    + destruct (c_body c s2 gs) as [ok effs] eqn:B.
      pose proof (run_effects_ok gs effs s2 W2) as Wr.
      apply RR_ran; auto.
      * split; [reflexivity|]. split; [exact W2|]. cbn [r_store r_grants r_effects]. rewrite B. split; [reflexivity|].
        intros Fl. eapply get_params_given; [exact W1|exact F|exact Fl| |exact Gp].
        apply R. eapply Forall_impl; [|exact Fl]. apply flat_simple.
      * cbn. rewrite B. reflexivity.
      * intros ty (x & [[Hx Hi]|[Hx Hi]]); cbn [r_grants r_effects] in *.
        -- apply (granted_exists is_commands _ _ grants_commands) in Hx. apply in_split in Hi. destruct Hi as (l1 & l2 & ->).
           rewrite fold_left_app in *. cbn [fold_left] in *. pose proof (run_effects_ok gs l1 s2 W2) as (Wa & _ & _ & _ & Da).
           set (sa := fold_left (run_effect gs) l1 s2) in *. specialize (Da (Cm Hx)).
           eapply writes_coming; [apply run_effects_ok, (run_effect_ok gs sa), Wa|].
           right. exists x. cbn [run_effect]. rewrite Hx. destruct (s_deferred sa) as [q|] eqn:Eq; [|contradiction].
           unfold queue. cbn. apply in_or_app. right. left. reflexivity.
        -- apply (granted_exists is_storage_mut _ _ grants_storage) in Hx. apply in_split in Hi. destruct Hi as (l1 & l2 & ->).
           rewrite fold_left_app in *. cbn [fold_left] in *. pose proof (run_effects_ok gs l1 s2 W2) as (Wa & _).
           set (sa := fold_left (run_effect gs) l1 s2) in *.
           eapply writes_coming; [apply run_effects_ok, (run_effect_ok gs sa), Wa|].
           left. cbn [run_effect]. rewrite Hx. destruct (add_service_ok sa ty x Wa) as (_ & _ & V). destruct (V ty) as (_ & -> & _).
           cbn. unfold at_type. rewrite N.eqb_refl. discriminate.
    + apply RR_panic. intros [H _]. congruence.
  - elim (get_params_no_err _ _ _ _ _ Gp).
  - apply RR_panic. intros (I & Fl & Cp). apply good_pairs in Cp.
    destruct (get_params_total (c_params c) s1 [] [] sts W1 F Fl) as (gs & s2 & E2); auto.
    { apply R. eapply Forall_impl; [|exact Fl]. apply flat_simple. }
    { intros i b []. }
    congruence.
Qed.
