(** The storage as a map by type. *)
From Verif Require Import Base.Prelude Base.Omap Comp.Model Comp.Spec.
Local Open Scope N_scope.

(** ** Sparse vectors *)
Section SV.
Context {V : Type}.
Implicit Types l : list (option V).

Lemma sv_get_set l i v j : (i < length l)%nat -> sv_get (sv_set l i v) j = if (j =? i)%nat then Some v else sv_get l j.
Proof.
  unfold sv_get. revert i j. induction l as [|x l IH]; intros i j H; cbn in H; [lia|].
  destruct i as [|i], j as [|j]; cbn; try reflexivity. apply IH. lia.
Qed.
Lemma sv_set_length l i v : length (sv_set l i v) = length l.
Proof. revert i. induction l as [|x l IH]; intros [|i]; cbn; auto. Qed.
Lemma sv_get_app_none l n j : sv_get (l ++ repeat None n) j = sv_get l j.
Proof.
  unfold sv_get. destruct (Nat.lt_ge_cases j (length l)) as [H|H].
  - rewrite nth_error_app1 by exact H. reflexivity.
  - rewrite nth_error_app2 by exact H. rewrite (proj2 (nth_error_None l j) H).
    destruct (nth_error (repeat None n) (j - length l)) as [x|] eqn:E; [|reflexivity].
    apply nth_error_In, repeat_spec in E. subst x. reflexivity.
Qed.
Lemma sv_get_insert l i v j : sv_get (sv_insert l i v) j = if (j =? i)%nat then Some v else sv_get l j.
Proof.
  unfold sv_insert. destruct (Nat.leb_spec (length l) i) as [H|H].
  - rewrite sv_get_set by (rewrite app_length, repeat_length; lia). rewrite sv_get_app_none. reflexivity.
  - apply sv_get_set, H.
Qed.
Lemma sv_get_lt l i v : sv_get l i = Some v -> (i < length l)%nat.
Proof. unfold sv_get. intros H. apply nth_error_Some. destruct (nth_error l i); discriminate. Qed.
Lemma sv_get_map (f : V -> V) l i : sv_get (map (option_map f) l) i = option_map f (sv_get l i).
Proof. unfold sv_get. rewrite nth_error_map. destruct (nth_error l i) as [[x|]|]; reflexivity. Qed.
End SV.

(** ** Indices *)
Lemma om_set_new {A} (m : omap A) k v : om_get m k = None -> length (om_set m k v) = S (length m).
Proof.
  induction m as [|[k' v'] m IH]; cbn; intros H; [reflexivity|].
  destruct (N.ltb_spec k k'); [reflexivity|]. destruct (k =? k'); [discriminate|]. cbn. rewrite (IH H). reflexivity.
Qed.

Record idx_ok (m : omap nat) : Prop := {
  io_lt : forall ty i, om_get m ty = Some i -> (i < length m)%nat;
  io_inj : forall a b i, om_get m a = Some i -> om_get m b = Some i -> a = b }.

Lemma idx_nil : idx_ok [].
Proof. split; discriminate. Qed.
Lemma register_spec m ty i m' : idx_ok m -> register m ty = (i, m') ->
  idx_ok m' /\ om_get m' ty = Some i /\ (forall t, t <> ty -> om_get m' t = om_get m t)
  /\ (forall t j, om_get m t = Some j -> om_get m' t = Some j)
  /\ (om_get m ty = Some i \/ (om_get m ty = None /\ i = length m)).
Proof.
  intros [Hl Hi]. unfold register. destruct (om_get m ty) as [j|] eqn:E; intros H; injection H as <- <-.
  { repeat split; auto. }
  assert (G : forall t, om_get (om_set m ty (length m)) t = if t =? ty then Some (length m) else om_get m t) by (intros; apply om_get_set).
  repeat split.
  - intros t i. rewrite G, (om_set_new _ _ _ E). destruct (N.eqb_spec t ty); intros H; [injection H as <-; lia|].
    apply Hl in H. lia.
  - intros a b i. rewrite !G. destruct (N.eqb_spec a ty) as [Ea|Ea], (N.eqb_spec b ty) as [Eb|Eb]; intros Ha Hb.
    + congruence.
    + injection Ha as <-. apply Hl in Hb. lia.
    + injection Hb as <-. apply Hl in Ha. lia.
    + eapply Hi; eauto.
  - rewrite G, N.eqb_refl. reflexivity.
  - intros t Ht. rewrite G. destruct (N.eqb_spec t ty); [contradiction|reflexivity].
  - intros t j Hj. rewrite G. destruct (N.eqb_spec t ty) as [Et|]; [congruence|exact Hj].
  - right. auto.
Qed.

(** ** Typed cells *)
Section Cells.
Context {V : Type}.
Implicit Types (m : omap nat) (l : list (option V)).
Definition look m l (ty : N) : option V := match om_get m ty with Some i => sv_get l i | None => None end.

Record typed (P : N -> V -> Prop) m l : Prop := {
  ty_idx : idx_ok m;
  ty_cell : forall ty i x, om_get m ty = Some i -> sv_get l i = Some x -> P ty x;
  ty_back : forall i x, sv_get l i = Some x -> exists ty, om_get m ty = Some i }.

Lemma typed_nil P : typed P [] [].
Proof. split; [apply idx_nil|discriminate|]. intros [|i] x H; discriminate. Qed.

Lemma typed_fresh P m l : typed P m l -> forall i, (length m <= i)%nat -> sv_get l i = None.
Proof.
  intros T i Hi. destruct (sv_get l i) as [x|] eqn:E; [|reflexivity].
  destruct (ty_back _ _ _ T _ _ E) as [ty Ht]. apply (io_lt _ (ty_idx _ _ _ T)) in Ht. lia.
Qed.

Lemma typed_look P m l ty x : typed P m l -> look m l ty = Some x -> P ty x.
Proof. unfold look. intros T. destruct (om_get m ty) as [i|] eqn:E; [|discriminate]. apply (ty_cell _ _ _ T); exact E. Qed.

Lemma typed_register P m l ty i m' : typed P m l -> register m ty = (i, m') ->
  typed P m' l /\ om_get m' ty = Some i /\ sv_get l i = look m l ty /\ (forall t, look m' l t = look m l t)
  /\ (forall t j, om_get m t = Some j -> om_get m' t = Some j).
Proof.
  intros T R. destruct (register_spec _ _ _ _ (ty_idx _ _ _ T) R) as (Hm & Hi & Ho & Hg & Hw).
  assert (Hs : sv_get l i = look m l ty).
  { unfold look. destruct Hw as [->|[-> ->]]; [reflexivity|]. apply (typed_fresh P m l T). lia. }
  assert (Hlk : forall t, look m' l t = look m l t).
  { intros t. destruct (N.eq_dec t ty) as [Et|Et]; [subst t; unfold look at 1; rewrite Hi; exact Hs|].
    unfold look. rewrite Ho by exact Et. reflexivity. }
  split; [|split; [exact Hi|split; [exact Hs|split; [exact Hlk|exact Hg]]]]. split; [exact Hm| |].
  - intros t j x Ht Hx. apply (typed_look P m l t x T). rewrite <- Hlk. unfold look. rewrite Ht. exact Hx.
  - intros j x Hx. destruct (ty_back _ _ _ T _ _ Hx) as [t Ht]. exists t. apply Hg, Ht.
Qed.

Lemma typed_insert P m l ty i x : typed P m l -> om_get m ty = Some i -> P ty x ->
  typed P m (sv_insert l i x) /\ (forall t, look m (sv_insert l i x) t = if t =? ty then Some x else look m l t).
Proof.
  intros T Hi Hx.
  assert (Hlk : forall t, look m (sv_insert l i x) t = if t =? ty then Some x else look m l t).
  { intros t. unfold look. destruct (N.eqb_spec t ty) as [Et|Et].
    - subst t. rewrite Hi, sv_get_insert, Nat.eqb_refl. reflexivity.
    - destruct (om_get m t) as [j|] eqn:Ej; [|reflexivity]. rewrite sv_get_insert.
      destruct (Nat.eqb_spec j i) as [Eij|]; [|reflexivity]. subst j.
      elim Et. exact (io_inj _ (ty_idx _ _ _ T) _ _ _ Ej Hi). }
  split; [|exact Hlk]. split; [apply T| |].
  - intros t j y Ht Hy. assert (L : look m (sv_insert l i x) t = Some y) by (unfold look; rewrite Ht; exact Hy).
    rewrite Hlk in L. destruct (N.eqb_spec t ty) as [Et|Et]; [injection L as <-; subst; exact Hx|].
    apply (typed_look P m l); assumption.
  - intros j y. rewrite sv_get_insert. destruct (Nat.eqb_spec j i) as [E|E]; intros H.
    + subst j. exists ty. exact Hi.
    + apply (ty_back _ _ _ T _ _ H).
Qed.

Lemma sv_set_insert l i (x : V) : (i < length l)%nat -> sv_insert l i x = sv_set l i x.
Proof. intros H. unfold sv_insert. destruct (Nat.leb_spec (length l) i); [lia|reflexivity]. Qed.

Lemma typed_map P m l (f : V -> V) : typed P m l -> (forall ty x, P ty x -> P ty (f x)) ->
  typed P m (map (option_map f) l) /\ (forall t, look m (map (option_map f) l) t = option_map f (look m l t)).
Proof.
  intros T Hf.
  split; [|intros t; unfold look; destruct (om_get m t); [apply sv_get_map|reflexivity]].
  split; [apply T| |].
  - intros t j y Ht. rewrite sv_get_map. destruct (sv_get l j) as [x|] eqn:Ex; [|discriminate].
    intros H; injection H as <-. apply Hf. eapply (ty_cell _ _ _ T); eauto.
  - intros j y. rewrite sv_get_map. destruct (sv_get l j) as [x|] eqn:Ex; [|discriminate].
    intros _. apply (ty_back _ _ _ T _ _ Ex).
Qed.
End Cells.

(** ** The storage invariant *)
Definition cfg_ty (ty : N) (c : cfg) : Prop := fst (cf_val c) = ty.
Definition any_ty (ty : N) (x : any) : Prop := fst x = ty.
Definition hob_ty (ty : N) (l : list any) : Prop := forall x, In x l -> fst x = ty.

Definition full {V} (m : omap nat) (l : list (option V)) : Prop := forall ty i, om_get m ty = Some i -> sv_get l i <> None.

Record wf (s : storage) : Prop := {
  wf_c : typed cfg_ty (s_config_idx s) (s_configs s);
  wf_cf : full (s_config_idx s) (s_configs s);
  wf_s : typed any_ty (s_service_idx s) (s_services s);
  wf_h : typed hob_ty (s_hob_idx s) (s_hobs s);
  wf_hf : full (s_hob_idx s) (s_hobs s) }.

Definition cview (c : cfg) : bool * N := (cf_locked c, snd (cf_val c)).
Definition cfgs (s : storage) : N -> option cfg := look (s_config_idx s) (s_configs s).
Definition svcs (s : storage) : N -> option any := look (s_service_idx s) (s_services s).
Definition hobz (s : storage) : N -> option (list any) := look (s_hob_idx s) (s_hobs s).
Definition view_of (s : storage) : view :=
  MkView (fun t => option_map cview (cfgs s t)) (fun t => option_map snd (svcs s t))
         (fun t => match hobz s t with Some l => map snd l | None => [] end).

Lemma wf_new : wf new_storage.
Proof. split; try apply typed_nil; intros ty i H; discriminate. Qed.

Lemma wf_shows s : wf s -> shows s (view_of s).
Proof.
  intros [C CF Sv H HF] ty. split; [|split].
  - unfold get_config. cbn [v_config view_of]. unfold cfgs, look.
    destruct (om_get (s_config_idx s) ty) as [i|] eqn:E; [|reflexivity].
    destruct (sv_get (s_configs s) i) as [c|] eqn:Ec; [|elim (CF _ _ E Ec)].
    rewrite (ty_cell _ _ _ C _ _ _ E Ec), N.eqb_refl. reflexivity.
  - unfold get_service. cbn [v_service view_of]. unfold svcs, look.
    destruct (om_get (s_service_idx s) ty) as [i|] eqn:E; [|reflexivity].
    destruct (sv_get (s_services s) i) as [[t v]|] eqn:Ec; [|reflexivity].
    pose proof (ty_cell _ _ _ Sv _ _ _ E Ec) as Ht. unfold any_ty in Ht. cbn in Ht. subst t. rewrite N.eqb_refl. reflexivity.
  - unfold get_hob. cbn [v_hob view_of]. unfold hobz, look.
    destruct (om_get (s_hob_idx s) ty) as [i|] eqn:E; [|reflexivity].
    destruct (sv_get (s_hobs s) i) as [l|] eqn:Ec; [|reflexivity].
    destruct (forallb _ l) eqn:F; [reflexivity|]. exfalso. apply not_true_iff_false in F. apply F, forallb_forall.
    intros x Hx. apply N.eqb_eq. exact (ty_cell _ _ _ H _ _ _ E Ec x Hx).
Qed.

(** Views are compared pointwise. *)
Definition veq (v w : view) : Prop :=
  forall t, v_config v t = v_config w t /\ v_service v t = v_service w t /\ v_hob v t = v_hob w t.
Lemma veq_refl v : veq v v. Proof. intros t. auto. Qed.
Lemma veq_trans u v w : veq u v -> veq v w -> veq u w.
Proof. intros A B t. destruct (A t) as (?&?&?), (B t) as (?&?&?). repeat split; congruence. Qed.
Lemma veq_sym u v : veq u v -> veq v u.
Proof. intros A t. destruct (A t) as (?&?&?). auto. Qed.
Lemma shows_veq s v w : shows s v -> veq v w -> shows s w.
Proof. intros A B t. destruct (B t) as (<-&<-&<-). apply A. Qed.
Lemma shows_view s v : wf s -> shows s v -> veq v (view_of s).
Proof.
  intros W A t. destruct (A t) as (E1&E2&E3), (wf_shows s W t) as (F1&F2&F3).
  rewrite E1 in F1. rewrite E2 in F2. rewrite E3 in F3. injection F1. injection F2. injection F3. auto.
Qed.
Lemma put_config_veq v w ty x : veq v w -> veq (put_config v ty x) (put_config w ty x).
Proof. intros A t. destruct (A t) as (?&?&?). cbn. unfold at_type. destruct (t =? ty); auto. Qed.
Lemma put_service_veq v w ty x : veq v w -> veq (put_service v ty x) (put_service w ty x).
Proof. intros A t. destruct (A t) as (?&?&?). cbn. unfold at_type. destruct (t =? ty); auto. Qed.
Lemma put_hob_veq v w ty x : veq v w -> veq (put_hob v ty x) (put_hob w ty x).
Proof.
  intros A t. destruct (A t) as (?&?&?). cbn. unfold at_type. destruct (t =? ty); auto.
  destruct (A ty) as (_&_&->). auto.
Qed.
Lemma lock_view_veq v w : veq v w -> veq (lock_view v) (lock_view w).
Proof. intros A t. destruct (A t) as (E&?&?). cbn. rewrite E. auto. Qed.

(** Indices are never lost, and the tables of services stay as they are. *)
Record grows (s s' : storage) : Prop := {
  gr_c : forall t i, om_get (s_config_idx s) t = Some i -> om_get (s_config_idx s') t = Some i;
  gr_s : forall t i, om_get (s_service_idx s) t = Some i -> om_get (s_service_idx s') t = Some i;
  gr_h : forall t i, om_get (s_hob_idx s) t = Some i -> om_get (s_hob_idx s') t = Some i;
  gr_b : s_boot s' = s_boot s;
  gr_r : s_runtime s' = s_runtime s }.
Lemma grows_refl s : grows s s. Proof. split; auto. Qed.
Lemma grows_trans a b c : grows a b -> grows b c -> grows a c.
Proof. intros [A1 A2 A3 A4 A5] [B1 B2 B3 B4 B5]. split; auto; congruence. Qed.

(** ** Storage operations *)
(** A cell of the configurations is given a new content. *)
Lemma put_cfg s ty i m c : wf s -> register (s_config_idx s) ty = (i, m) -> cfg_ty ty c ->
  let s' := with_configs s (sv_insert (s_configs s) i c) m in
  wf s' /\ grows s s' /\ veq (view_of s') (put_config (view_of s) ty (cview c))
  /\ om_get (s_config_idx s') ty = Some i.
Proof.
  intros [C CF Sv H HF] R Hc s'.
  destruct (typed_register _ _ _ _ _ _ C R) as (T & Hi & _ & Hlk & Hg).
  destruct (typed_insert _ _ _ _ _ c T Hi Hc) as [T' Hlk'].
  split; [|split; [|split]].
  - split; cbn; auto. intros t j Ht. rewrite sv_get_insert.
    destruct (Nat.eqb_spec j i) as [Ej|Ej]; [discriminate|].
    assert (Hne : t <> ty) by (intros ->; congruence).
    destruct (register_spec _ _ _ _ (ty_idx _ _ _ C) R) as (_ & _ & Ho & _).
    rewrite Ho in Ht by exact Hne. exact (CF _ _ Ht).
  - split; cbn; auto.
  - intros t. cbn. unfold cfgs, at_type. cbn. rewrite Hlk', Hlk. destruct (t =? ty); auto.
  - exact Hi.
Qed.

Lemma add_config_ok s ty x : wf s ->
  wf (add_config s ty x) /\ grows s (add_config s ty x)
  /\ veq (view_of (add_config s ty x)) (put_config (view_of s) ty (true, x)).
Proof.
  intros W. unfold add_config. destruct (register (s_config_idx s) ty) as [i m] eqn:R.
  destruct (put_cfg s ty i m (MkCfg true (ty, x)) W R eq_refl) as (A&B&C&_). auto.
Qed.

Lemma upd_config_ok s ty i f : wf s -> om_get (s_config_idx s) ty = Some i -> (forall c, cfg_ty ty c -> cfg_ty ty (f c)) ->
  exists c, cfgs s ty = Some c /\ wf (upd_config s i f) /\ grows s (upd_config s i f)
  /\ veq (view_of (upd_config s i f)) (put_config (view_of s) ty (cview (f c))).
Proof.
  intros W Hi Hf. unfold upd_config. pose proof (wf_cf s W ty i Hi) as Hn.
  destruct (sv_get (s_configs s) i) as [c|] eqn:Ec; [|contradiction].
  exists c. assert (Hc : cfg_ty ty c) by exact (ty_cell _ _ _ (wf_c s W) _ _ _ Hi Ec).
  assert (R : register (s_config_idx s) ty = (i, s_config_idx s)) by (unfold register; rewrite Hi; reflexivity).
  split; [unfold cfgs, look; rewrite Hi; exact Ec|].
  rewrite <- sv_set_insert by exact (sv_get_lt _ _ _ Ec).
  destruct (put_cfg s ty i _ (f c) W R (Hf _ Hc)) as (A&B&C&_). auto.
Qed.

Lemma lock_configs_ok s : wf s -> wf (lock_configs s) /\ grows s (lock_configs s) /\ veq (view_of (lock_configs s)) (lock_view (view_of s)).
Proof.
  intros [C CF Sv H HF]. destruct (typed_map _ _ _ lock_cfg C) as [T L]; [intros ty x; exact (fun h => h)|].
  split; [|split].
  - split; cbn; auto. intros t i Ht. rewrite sv_get_map. pose proof (CF _ _ Ht). destruct (sv_get (s_configs s) i); [discriminate|contradiction].
  - split; cbn; auto.
  - intros t. cbn. unfold cfgs. cbn. rewrite L. destruct (look (s_config_idx s) (s_configs s) t); cbn; auto.
Qed.

Lemma add_service_ok s ty x : wf s ->
  wf (add_service s ty x) /\ grows s (add_service s ty x)
  /\ veq (view_of (add_service s ty x)) (put_service (view_of s) ty x).
Proof.
  intros [C CF Sv H HF]. unfold add_service. destruct (register (s_service_idx s) ty) as [i m] eqn:R.
  destruct (typed_register _ _ _ _ _ _ Sv R) as (T & Hi & _ & Hlk & Hg).
  destruct (typed_insert _ _ _ _ _ (ty, x) T Hi eq_refl) as [T' Hlk'].
  split; [|split]; [split; cbn; auto|split; cbn; auto|].
  intros t. cbn. unfold svcs, at_type. cbn. rewrite Hlk', Hlk. destruct (t =? ty); auto.
Qed.

Lemma register_service_ok s ty i m : wf s -> register (s_service_idx s) ty = (i, m) ->
  let s' := with_services s (s_services s) m in
  wf s' /\ grows s s' /\ veq (view_of s') (view_of s) /\ om_get (s_service_idx s') ty = Some i.
Proof.
  intros [C CF Sv H HF] R s'. destruct (typed_register _ _ _ _ _ _ Sv R) as (T & Hi & _ & Hlk & Hg).
  split; [|split; [|split]]; [split; cbn; auto|split; cbn; auto| |exact Hi].
  intros t. cbn. unfold svcs. cbn. rewrite Hlk. auto.
Qed.

Lemma register_hob_ok s ty i s' : wf s -> register_hob s ty = (i, s') ->
  wf s' /\ grows s s' /\ veq (view_of s') (view_of s) /\ om_get (s_hob_idx s') ty = Some i /\ s_parsers s' = s_parsers s
  /\ s_deferred s' = s_deferred s.
Proof.
  intros [C CF Sv H HF]. unfold register_hob. destruct (register (s_hob_idx s) ty) as [j m] eqn:R.
  intros E; injection E as <- <-.
  destruct (typed_register _ _ _ _ _ _ H R) as (T & Hi & Hs & Hlk & Hg).
  destruct (register_spec _ _ _ _ (ty_idx _ _ _ H) R) as (_ & _ & Ho & _ & Hw).
  destruct (sv_get (s_hobs s) j) as [l|] eqn:El.
  - split; [|split; [|split; [|split; [|split]]]]; [split; cbn; auto|split; cbn; auto| |exact Hi|reflexivity|reflexivity].
    + intros t k Ht. destruct (N.eq_dec t ty) as [Et|Et]; [subst t; rewrite Hi in Ht; injection Ht as <-; congruence|].
      rewrite Ho in Ht by exact Et. exact (HF _ _ Ht).
    + intros t. cbn. unfold hobz. cbn. rewrite Hlk. auto.
  - destruct (typed_insert _ _ _ _ _ [] T Hi) as [T' Hlk']; [intros x []|].
    split; [|split; [|split; [|split; [|split]]]]; [split; cbn; auto|split; cbn; auto| |exact Hi|reflexivity|reflexivity].
    + intros t k Ht. rewrite sv_get_insert. destruct (Nat.eqb_spec k j) as [Ej|Ej]; [discriminate|].
      assert (Hne : t <> ty) by (intros ->; congruence). rewrite Ho in Ht by exact Hne. exact (HF _ _ Ht).
    + intros t. cbn. unfold hobz. cbn. rewrite Hlk', Hlk. destruct (N.eqb_spec t ty) as [Et|Et]; auto.
      subst t. rewrite <- Hs. auto.
Qed.

Lemma add_hob_ok s ty x : wf s -> exists s', add_hob s ty x = Ok s' /\ wf s' /\ grows s s'
  /\ veq (view_of s') (put_hob (view_of s) ty x) /\ s_parsers s' = s_parsers s /\ s_deferred s' = s_deferred s.
Proof.
  intros W. unfold add_hob. destruct (register_hob s ty) as [i s1] eqn:R.
  destruct (register_hob_ok _ _ _ _ W R) as (W1 & G1 & V1 & Hi & P1 & D1).
  pose proof (wf_hf _ W1 _ _ Hi) as Hn. destruct (sv_get (s_hobs s1) i) as [l|] eqn:El; [|contradiction].
  eexists; split; [reflexivity|].
  assert (Ht : hob_ty ty l) by exact (ty_cell _ _ _ (wf_h _ W1) _ _ _ Hi El).
  rewrite <- sv_set_insert by exact (sv_get_lt _ _ _ El).
  destruct (typed_insert _ _ _ _ _ (l ++ [(ty, x)]) (wf_h _ W1) Hi) as [T' Hlk'].
  { intros y Hy. apply in_app_or in Hy. destruct Hy as [Hy|[<-|[]]]; [apply Ht, Hy|reflexivity]. }
  destruct W1 as [C CF Sv H HF].
  split; [|split; [|split; [|split]]]; cbn; auto.
  - split; cbn; auto. intros t k Hk. rewrite sv_get_insert. destruct (Nat.eqb k i); [discriminate|]. exact (HF _ _ Hk).
  - eapply grows_trans; [exact G1|]. split; cbn; auto.
  - intros t. destruct (V1 t) as (E1&E2&E3). cbn in *. unfold hobz, at_type in *. cbn. rewrite Hlk'.
    destruct (N.eqb_spec t ty) as [Et|Et]; auto. subst t. split; [exact E1|split; [exact E2|]]. rewrite map_app.
    f_equal. rewrite <- E3. unfold look. rewrite Hi, El. reflexivity.
Qed.

Lemma run_cmd_ok s c : wf s -> wf (run_cmd s c) /\ grows s (run_cmd s c) /\ veq (view_of (run_cmd s c)) (cmd_view (view_of s) c).
Proof. intros W. destruct c; [apply add_config_ok, W|apply add_service_ok, W]. Qed.

Lemma with_deferred_ok s d : wf s -> wf (with_deferred s d) /\ grows s (with_deferred s d) /\ veq (view_of (with_deferred s d)) (view_of s).
Proof. intros [C CF Sv H HF]. split; [|split]; [split; auto|split; auto|apply veq_refl]. Qed.

Lemma cmd_view_veq v w c : veq v w -> veq (cmd_view v c) (cmd_view w c).
Proof. destruct c; [apply put_config_veq|apply put_service_veq]. Qed.
Lemma cmds_view_veq q : forall v w, veq v w -> veq (fold_left cmd_view q v) (fold_left cmd_view q w).
Proof. induction q as [|c q IH]; intros v w H; [exact H|]. cbn. apply IH, cmd_view_veq, H. Qed.

Lemma run_cmds_ok q : forall s, wf s -> let s' := fold_left run_cmd q s in
  wf s' /\ grows s s' /\ veq (view_of s') (fold_left cmd_view q (view_of s)) /\ s_deferred s' = s_deferred s.
Proof.
  induction q as [|c q IH]; intros s W; cbn.
  { split; [exact W|]. split; [apply grows_refl|]. split; [apply veq_refl|reflexivity]. }
  destruct (run_cmd_ok s c W) as (W1 & G1 & V1). destruct (IH _ W1) as (W2 & G2 & V2 & D2).
  split; [exact W2|]. split; [exact (grows_trans _ _ _ G1 G2)|]. split; [|rewrite D2].
  - eapply veq_trans; [exact V2|]. apply cmds_view_veq, V1.
  - destruct c; unfold run_cmd, add_config, add_service; [destruct (register (s_config_idx s) ty)|destruct (register (s_service_idx s) ty)]; reflexivity.
Qed.

Definition queue (s : storage) : list cmd := match s_deferred s with Some q => q | None => [] end.
Lemma apply_deferred_ok s : wf s -> let s' := apply_deferred s in
  wf s' /\ grows s s' /\ veq (view_of s') (fold_left cmd_view (queue s) (view_of s)) /\ s_deferred s' = None.
Proof.
  intros W. unfold apply_deferred, queue. destruct (s_deferred s) as [q|] eqn:E; cbn.
  - destruct (with_deferred_ok s None W) as (W0 & G0 & V0). destruct (run_cmds_ok q _ W0) as (W1 & G1 & V1 & D1).
    split; [exact W1|]. split; [exact (grows_trans _ _ _ G0 G1)|]. split; [exact V1|]. rewrite D1. reflexivity.
  - split; [exact W|]. split; [apply grows_refl|]. split; [apply veq_refl|exact E].
Qed.
