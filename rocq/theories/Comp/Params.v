(** Parameters: what initialising, validating and fetching them does. *)
From Verif Require Import Base.Prelude Base.Omap Comp.Model Comp.Spec Comp.Proofs.
Local Open Scope N_scope.

(** ** Conflicts *)
Fixpoint good (prev ls : list param) : Prop :=
  match ls with [] => True | p :: t => (forall q, In q prev -> ~ conflict q p) /\ good (prev ++ [p]) t end.

Lemma good_app ls1 : forall prev ls2, good prev (ls1 ++ ls2) <-> good prev ls1 /\ good (prev ++ ls1) ls2.
Proof.
  induction ls1 as [|p t IH]; intros prev ls2; cbn.
  - rewrite app_nil_r. tauto.
  - rewrite IH, <- app_assoc. cbn. tauto.
Qed.
Lemma good_split ls : forall prev, good prev ls <-> (forall q p, In q prev -> In p ls -> ~ conflict q p) /\ good [] ls.
Proof.
  induction ls as [|x t IH]; intros prev; cbn.
  - split; [intros _; split; [intros q p _ []|exact I]|auto].
  - rewrite (IH (prev ++ [x])), (IH [x]). split.
    + intros (A & B & C). repeat split; auto.
      * intros q p Hq [<-|Hp]; [auto|]. apply B; [apply in_or_app; auto|exact Hp].
      * intros q p [<-|[]] Hp. apply B; [apply in_or_app; right; left; reflexivity|exact Hp].
    + intros (A & _ & B & C). repeat split; auto. intros q p Hq Hp. apply in_app_or in Hq.
      destruct Hq as [Hq|[<-|[]]]; [apply A; auto|]. apply B; [left; reflexivity|exact Hp].
Qed.
Lemma good_pairs ls : good [] ls <-> ForallOrdPairs (fun p q => ~ conflict p q) ls.
Proof.
  induction ls as [|x t IH]; [split; [constructor|cbn; auto]|].
  cbn. rewrite good_split, IH. split.
  - intros (_ & A & B). constructor; [|exact B]. apply Forall_forall. intros p Hp. apply A; [left; reflexivity|exact Hp].
  - intros H. inversion H as [|? ? A B]; subst. split; [intros q []|]. split; [|exact B].
    intros q p [<-|[]] Hp. rewrite Forall_forall in A. apply A, Hp.
Qed.

Definition conflict_dec p q : {conflict p q} + {~ conflict p q}.
Proof. destruct p, q; cbn; try (left; exact I); try apply N.eq_dec; right; intros []. Defined.
Definition good1_dec prev p : {forall q, In q prev -> ~ conflict q p} + {~ forall q, In q prev -> ~ conflict q p}.
Proof.
  induction prev as [|x t IH]; [left; intros q []|].
  destruct (conflict_dec x p) as [C|C]; [right; intros H; apply (H x); [left; reflexivity|exact C]|].
  destruct IH as [IH|IH]; [left|right].
  - intros q [<-|Hq]; [exact C|apply IH, Hq].
  - intros H. apply IH. intros q Hq. apply H. right. exact Hq.
Defined.

(** ** Access bookkeeping *)
Definition reg (s : storage) (ty : N) (i : nat) : Prop := om_get (s_config_idx s) ty = Some i.
Record acc (s : storage) (a : access) (prev : list param) : Prop := {
  ac_w : forall i, has (a_writes a) i = true <-> exists ty, In (PConfigMut ty) prev /\ reg s ty i;
  ac_u : forall i, has (a_uses a) i = true <-> exists ty, (In (PConfig ty) prev \/ In (PConfigMut ty) prev) /\ reg s ty i;
  ac_r : a_rall a = true <-> In PStorage prev \/ In PStorageMut prev;
  ac_a : a_wall a = true <-> In PStorageMut prev;
  ac_d : a_deferred a = true <-> In PCommands prev;
  ac_reg : forall ty, In (PConfig ty) prev \/ In (PConfigMut ty) prev -> exists i, reg s ty i }.

Lemma acc_nil s : acc s no_access [].
Proof.
  split; cbn.
  - intros i; split; [discriminate|intros [? [[] _]]].
  - intros i; split; [discriminate|intros [? [[[]|[]] _]]].
  - split; [discriminate|tauto].
  - split; [discriminate|tauto].
  - split; [discriminate|tauto].
  - intros ty [[]|[]].
Qed.

Lemma acc_grows s s' a prev : acc s a prev -> grows s s' -> acc s' a prev.
Proof.
  intros [W U R A D G] [C _ _ _ _].
  assert (K : forall ty i, In (PConfig ty) prev \/ In (PConfigMut ty) prev -> reg s ty i <-> reg s' ty i).
  { intros ty i Hin. split; [apply C|]. intros H. destruct (G ty Hin) as [j Hj]. pose proof (C _ _ Hj). unfold reg in *. congruence. }
  split; auto.
  - intros i. rewrite W. split; intros (ty & Hin & Hr); exists ty; (split; [exact Hin|]); apply (K ty i); auto.
  - intros i. rewrite U. split; intros (ty & Hin & Hr); exists ty; (split; [exact Hin|]); apply (K ty i); auto.
  - intros ty Hin. destruct (G ty Hin) as [i Hi]. exists i. apply C, Hi.
Qed.

Lemma has_cons j l i : has (j :: l) i = true <-> i = j \/ has l i = true.
Proof. unfold has. cbn. rewrite orb_true_iff, Nat.eqb_eq. tauto. Qed.
Lemma has_nonempty l : negb (length l =? 0)%nat = true <-> exists i, has l i = true.
Proof.
  destruct l as [|j l]; cbn; split; try discriminate; auto.
  - intros [i H]; discriminate.
  - intros _. exists j. unfold has. cbn. rewrite Nat.eqb_refl. reflexivity.
Qed.

Ltac in_snoc := rewrite ?in_app_iff in *; cbn [In] in *.

(** ** Initialising *)
Section Init.
Variables (default : N -> N) (hob_guid : N -> N).
Notation initp := (init_param default hob_guid).

Fixpoint st_ok (s : storage) (p : param) (st : pst) : Prop :=
  match p, st with
  | PConfig ty, SIdx i | PConfigMut ty, SIdx i => om_get (s_config_idx s) ty = Some i
  | PService ty, SIdx i => om_get (s_service_idx s) ty = Some i
  | PHob ty, SIdx i => om_get (s_hob_idx s) ty = Some i
  | PConfig _, _ | PConfigMut _, _ | PService _, _ | PHob _, _ => False
  | POption q, _ => st_ok s q st
  | PPair q r, SPair a b => st_ok s q a /\ st_ok s r b
  | PPair _ _, _ => False
  | _, _ => True
  end.
Lemma st_ok_grows s s' : grows s s' -> forall p st, st_ok s p st -> st_ok s' p st.
Proof.
  intros G. induction p; intros st; cbn; auto; try (destruct st; auto; apply G).
  destruct st as [| |x y]; auto. intros [A B]. auto.
Qed.

Lemma init_leaf_veq v w p : veq v w -> veq (init_leaf default v p) (init_leaf default w p).
Proof.
  intros H. destruct p; cbn; auto.
  - destruct (H ty) as (<-&_&_). destruct (v_config v ty); [exact H|apply put_config_veq, H].
  - destruct (H ty) as (<-&_&_). destruct (v_config v ty) as [[? ?]|]; apply put_config_veq, H.
Qed.
Lemma init_leaves_veq ls : forall v w, veq v w -> veq (fold_left (init_leaf default) ls v) (fold_left (init_leaf default) ls w).
Proof. induction ls as [|p t IH]; intros v w H; [exact H|]. cbn. apply IH, init_leaf_veq, H. Qed.

(** Registered parsers. *)
Record pok (s : storage) (W : N -> Prop) : Prop := {
  po_s : om_sorted (s_parsers s);
  po_m : forall g m, om_get (s_parsers s) g = Some m -> om_sorted m;
  po_k : forall g ty, (exists m, om_get (s_parsers s) g = Some m /\ In ty (om_keys m)) <-> g = hob_guid ty /\ W ty }.

Definition wants (W : N -> Prop) (ls : list param) (ty : N) : Prop := W ty \/ In (PHob ty) ls.
Lemma pok_ext s W W' : pok s W -> (forall ty, W ty <-> W' ty) -> pok s W'.
Proof. clear default. intros [A B C] E. split; auto. intros g ty. rewrite C, E. tauto. Qed.
Lemma pok_same s s' W : s_parsers s' = s_parsers s -> pok s W -> pok s' W.
Proof. intros E [A B C]. split; rewrite E; auto. Qed.

Lemma keys_set {A} (m : omap A) k v t : In t (om_keys (om_set m k v)) <-> t = k \/ In t (om_keys m).
Proof.
  rewrite <- !om_get_key, om_get_set. destruct (N.eqb_spec t k) as [E|E]; [split; [auto|discriminate]|]. tauto.
Qed.

Lemma add_parser_ok s ty W : pok s W -> pok (add_parser hob_guid s ty) (fun t => W t \/ t = ty).
Proof.
  intros [A B C]. unfold add_parser.
  set (m0 := match om_get (s_parsers s) (hob_guid ty) with Some m => m | None => [] end).
  assert (S0 : om_sorted m0).
  { unfold m0. destruct (om_get (s_parsers s) (hob_guid ty)) as [m|] eqn:E; [exact (B _ _ E)|apply om_sorted_nil]. }
  assert (K0 : forall t, In t (om_keys m0) <-> hob_guid ty = hob_guid t /\ W t).
  { intros t. rewrite <- C. unfold m0. destruct (om_get (s_parsers s) (hob_guid ty)) as [m|].
    - split; [intros H; exists m; auto|intros (m' & E & H); congruence].
    - split; [intros []|intros (m' & E & H); discriminate]. }
  split; cbn.
  - apply om_sorted_set, A.
  - intros g m. rewrite om_get_set. destruct (N.eqb_spec g (hob_guid ty)) as [E|E]; [|apply B].
    intros H; injection H as <-. apply om_sorted_set, S0.
  - intros g t. rewrite om_get_set. destruct (N.eqb_spec g (hob_guid ty)) as [E|E].
    + subst g. transitivity (In t (om_keys (om_set m0 ty tt))).
      { split; [intros (m & H & K); injection H as <-; exact K|intros K; eexists; split; [reflexivity|exact K]]. }
      rewrite keys_set, K0. split; [intros [Et|[H1 H2]]; [subst; auto|auto]|intros [H1 [H2|H2]]; auto].
    + rewrite C. split; [tauto|]. intros [H1 [H2|H2]]; [auto|]. subst t. contradiction.
Qed.

Lemma add_default_ok s ty i s' : wf s -> add_default default s ty = (i, s') ->
  wf s' /\ grows s s' /\ veq (view_of s') (init_leaf default (view_of s) (PConfig ty)) /\ reg s' ty i
  /\ s_parsers s' = s_parsers s /\ s_deferred s' = s_deferred s.
Proof.
  intros W. unfold add_default. destruct (register (s_config_idx s) ty) as [j m] eqn:R. intros E; injection E as <- <-.
  destruct (typed_register _ _ _ _ _ _ (wf_c _ W) R) as (T & Hi & Hs & Hlk & Hg).
  unfold sv_contains. destruct (sv_get (s_configs s) j) as [c|] eqn:Ec.
  - destruct W as [C CF Sv H HF].
    destruct (register_spec _ _ _ _ (ty_idx _ _ _ C) R) as (_ & _ & Ho & _ & Hw).
    split; [|split; [|split; [|split; [|split]]]]; [split; cbn; auto|split; cbn; auto| |exact Hi|reflexivity|reflexivity].
    + intros t k Ht. destruct (N.eq_dec t ty) as [Et|Et]; [subst t; rewrite Hi in Ht; injection Ht as <-; congruence|].
      rewrite Ho in Ht by exact Et. exact (CF _ _ Ht).
    + cbn [init_leaf]. cbn [view_of v_config]. unfold cfgs at 1. rewrite <- Hs. cbn [option_map].
      intros t. cbn. unfold cfgs. cbn. rewrite Hlk. auto.
  - destruct (put_cfg s ty j m (MkCfg true (ty, default ty)) W R eq_refl) as (A&B&V&D).
    split; [exact A|]. split; [exact B|]. split; [|split; [exact D|split; reflexivity]].
    cbn [init_leaf]. cbn [view_of v_config]. unfold cfgs at 1. rewrite <- Hs. cbn [option_map]. exact V.
Qed.

Lemma unlock_ok s ty i : wf s -> reg s ty i ->
  wf (unlock_config s i) /\ grows s (unlock_config s i) /\ s_parsers (unlock_config s i) = s_parsers s
  /\ s_deferred (unlock_config s i) = s_deferred s
  /\ exists x, v_config (view_of s) ty = Some x /\ veq (view_of (unlock_config s i)) (put_config (view_of s) ty (false, snd x)).
Proof.
  intros W R. destruct (upd_config_ok s ty i unlock_cfg W R) as (c & Hc & A & B & V); [intros c; exact (fun h => h)|].
  split; [exact A|]. split; [exact B|]. unfold unlock_config, upd_config.
  split; [destruct (sv_get (s_configs s) i); reflexivity|].
  split; [destruct (sv_get (s_configs s) i); reflexivity|].
  exists (cview c). split; [cbn; rewrite Hc; reflexivity|exact V].
Qed.

(** The outcome of initialising parameters with leaves [ls] after those of [prev]. *)
Definition init_res (dbg : bool) {X} (s : storage) (prev ls : list param) (W : N -> Prop) (ok : storage -> X -> Prop)
  (r : res efi_error (storage * access * X)) : Prop :=
  (dbg = true /\ r = Panic /\ ~ good prev ls)
  \/ exists s1 a1 x, r = Ok (s1, a1, x) /\ (dbg = true -> good prev ls) /\ wf s1 /\ grows s s1
     /\ veq (view_of s1) (fold_left (init_leaf default) ls (view_of s)) /\ ok s1 x /\ acc s1 a1 (prev ++ ls)
     /\ pok s1 (wants W ls) /\ s_deferred s1 = s_deferred s.

Lemma dassert_false dbg : dassert_not dbg false = Ok tt.
Proof. unfold dassert_not. rewrite andb_false_r. reflexivity. Qed.

(** Two assertions in a row. *)
Lemma dassert_cases dbg b : (dbg = true /\ b = true /\ dassert_not dbg b = Panic) \/ (dassert_not dbg b = Ok tt /\ (dbg = true -> b = false)).
Proof. unfold dassert_not. destruct dbg, b; cbn; auto; right; split; auto; discriminate. Qed.

Lemma wants_skip s W p : pok s W -> (forall ty, p <> PHob ty) -> pok s (wants W [p]).
Proof.
  intros P H. apply (pok_ext _ _ _ P). intros ty. unfold wants. cbn. split; [auto|]. intros [A|[A|[]]]; [exact A|]. elim (H ty A).
Qed.

Lemma init_param_ok dbg : forall p s a prev W, wf s -> acc s a prev -> pok s W ->
  init_res dbg s prev (leaves p) W (fun s1 st => st_ok s1 p st) (initp dbg s a p).
Proof.
  assert (G1 : forall prev p, good prev [p] <-> forall q, In q prev -> ~ conflict q p) by (intros; cbn; tauto).
  induction p; intros s a prev W Hs Ha Hp.
  - (* PConfig *)
    cbn [init_param leaves]. destruct (add_default default s ty) as [i s1] eqn:D.
    destruct (add_default_ok _ _ _ _ Hs D) as (W1 & Gr & V & R & P1 & D1).
    pose proof (acc_grows _ _ _ _ Ha Gr) as A1.
    destruct (dassert_cases dbg (a_wall a)) as [(E1 & E2 & ->)|(-> & E1)].
    { left. split; [exact E1|]. split; [reflexivity|]. rewrite G1. intros H. apply (H PStorageMut); [apply (ac_a _ _ _ Ha), E2|exact I]. }
    cbn [bind].
    destruct (dassert_cases dbg (has_config_write a i)) as [(F1 & F2 & ->)|(-> & F1)].
    { left. split; [exact F1|]. split; [reflexivity|]. rewrite G1. intros H. unfold has_config_write in F2.
      rewrite (E1 F1) in F2. cbn in F2. apply (ac_w _ _ _ A1) in F2. destruct F2 as (t & Ht & Hr).
      assert (t = ty) by exact (io_inj _ (ty_idx _ _ _ (wf_c _ W1)) _ _ _ Hr R). subst t.
      apply (H _ Ht). reflexivity. }
    cbn [bind]. right. exists s1, (add_config_read a i), (SIdx i). split; [reflexivity|].
    split; [|split; [exact W1|split; [exact Gr|split; [exact V|split; [exact R|split; [|split; [|exact D1]]]]]]].
    + intros Hd. rewrite G1. intros q Hq Hc. destruct q; cbn in Hc; try contradiction.
      * subst ty0. specialize (F1 Hd). unfold has_config_write in F1. rewrite (E1 Hd) in F1. cbn in F1.
        apply not_true_iff_false in F1. apply F1, (ac_w _ _ _ A1). exists ty. auto.
      * specialize (E1 Hd). apply not_true_iff_false in E1. apply E1, (ac_a _ _ _ Ha), Hq.
    + destruct A1 as [Aw Au Ar Aa Ad Ag]. split; cbn [add_config_read a_writes a_uses a_rall a_wall a_deferred].
      * intros j. rewrite Aw. split; intros (t & Ht & Hr); exists t; in_snoc; (split; [|exact Hr]); [auto|].
        destruct Ht as [Ht|[Ht|[]]]; [exact Ht|discriminate].
      * intros j. rewrite has_cons, Au. split.
        -- intros [Hj|(t & Ht & Hr)]; [exists ty; subst j; in_snoc; auto|exists t; in_snoc; tauto].
        -- intros (t & Ht & Hr). in_snoc. destruct Ht as [[Ht|[Ht|[]]]|[Ht|[Ht|[]]]]; try discriminate; try solve [right; exists t; auto].
           injection Ht as <-. left. unfold reg in *. congruence.
      * rewrite Ar. in_snoc. intuition discriminate.
      * rewrite Aa. in_snoc. intuition discriminate.
      * rewrite Ad. in_snoc. intuition discriminate.
      * intros t Ht. in_snoc. destruct Ht as [[Ht|[Ht|[]]]|[Ht|[Ht|[]]]]; try discriminate; try solve [apply Ag; auto].
        injection Ht as <-. exists i. exact R.
    + apply wants_skip; [exact (pok_same _ _ _ P1 Hp)|discriminate].
  - (* PConfigMut *)
    cbn [init_param leaves]. destruct (add_default default s ty) as [i s1] eqn:D.
    destruct (add_default_ok _ _ _ _ Hs D) as (W1 & Gr & V & R & P1 & D1).
    destruct (unlock_ok s1 ty i W1 R) as (W2 & Gr2 & P2 & D2 & x & Hx & V2).
    set (s2 := unlock_config s1 i) in *.
    pose proof (grows_trans _ _ _ Gr Gr2) as Gr3. pose proof (acc_grows _ _ _ _ Ha Gr3) as A1.
    assert (R2 : reg s2 ty i) by (apply Gr2, R).
    destruct (dassert_cases dbg (a_wall a)) as [(E1 & E2 & ->)|(-> & E1)].
    { left. split; [exact E1|]. split; [reflexivity|]. rewrite G1. intros H. apply (H PStorageMut); [apply (ac_a _ _ _ Ha), E2|exact I]. }
    cbn [bind].
    destruct (dassert_cases dbg (a_rall a)) as [(E2 & E3 & ->)|(-> & E2)].
    { left. split; [exact E2|]. split; [reflexivity|]. rewrite G1. intros H. apply (ac_r _ _ _ Ha) in E3.
      destruct E3 as [E3|E3]; apply (H _ E3); exact I. }
    cbn [bind].
    assert (Inj : forall t, reg s2 t i -> t = ty) by (intros t Ht; exact (io_inj _ (ty_idx _ _ _ (wf_c _ W2)) _ _ _ Ht R2)).
    destruct (dassert_cases dbg (has_config_write a i)) as [(F1 & F2 & ->)|(-> & F1)].
    { left. split; [exact F1|]. split; [reflexivity|]. rewrite G1. intros H. unfold has_config_write in F2.
      rewrite (E1 F1) in F2. cbn in F2. apply (ac_w _ _ _ A1) in F2. destruct F2 as (t & Ht & Hr).
      rewrite (Inj t Hr) in Ht. apply (H _ Ht). reflexivity. }
    cbn [bind].
    destruct (dassert_cases dbg (has_config_read a i)) as [(F2 & F3 & ->)|(-> & F2)].
    { left. split; [exact F2|]. split; [reflexivity|]. rewrite G1. intros H. unfold has_config_read in F3.
      rewrite (E2 F2) in F3. cbn in F3. apply (ac_u _ _ _ A1) in F3. destruct F3 as (t & Ht & Hr).
      rewrite (Inj t Hr) in Ht. destruct Ht as [Ht|Ht]; apply (H _ Ht); reflexivity. }
    cbn [bind]. right. exists s2, (add_config_write a i), (SIdx i). split; [reflexivity|].
    split; [|split; [exact W2|split; [exact Gr3|split; [|split; [exact R2|split; [|split; [|congruence]]]]]]].
    + intros Hd. rewrite G1. specialize (E1 Hd). specialize (E2 Hd). specialize (F1 Hd). specialize (F2 Hd).
      unfold has_config_write in F1. rewrite E1 in F1. unfold has_config_read in F2. rewrite E2 in F2. cbn in F1, F2.
      apply not_true_iff_false in E1, E2, F1, F2.
      intros q Hq Hc. destruct q; cbn in Hc; try contradiction; try subst ty0.
      * apply F2, (ac_u _ _ _ A1). exists ty. auto.
      * apply F1, (ac_w _ _ _ A1). exists ty. auto.
      * apply E2, (ac_r _ _ _ Ha). auto.
      * apply E1, (ac_a _ _ _ Ha), Hq.
    + eapply veq_trans; [exact V2|]. destruct (V ty) as (Vt & _ & _). rewrite Hx in Vt. cbn [fold_left init_leaf] in Vt |- *.
      destruct (v_config (view_of s) ty) as [[l y]|] eqn:Ey.
      * rewrite Ey in Vt. injection Vt as ->. cbn [snd]. apply put_config_veq. cbn [init_leaf] in V. rewrite Ey in V. exact V.
      * cbn [put_config v_config] in Vt. unfold at_type in Vt. rewrite N.eqb_refl in Vt. injection Vt as ->. cbn [snd].
        intros t. destruct (V t) as (V1 & Vs & Vh). cbn [init_leaf] in V1, Vs, Vh. rewrite Ey in V1, Vs, Vh. cbn in V1, Vs, Vh |- *.
        unfold at_type in *. destruct (t =? ty); auto.
    + destruct A1 as [Aw Au Ar Aa Ad Ag]. split; cbn [add_config_write a_writes a_uses a_rall a_wall a_deferred].
      * intros j. rewrite has_cons, Aw. split.
        -- intros [Hj|(t & Ht & Hr)]; [exists ty; subst j; in_snoc; auto|exists t; in_snoc; tauto].
        -- intros (t & Ht & Hr). in_snoc. destruct Ht as [Ht|[Ht|[]]]; try discriminate; [right; exists t; auto|].
           injection Ht as <-. left. unfold reg in *. congruence.
      * intros j. rewrite has_cons, Au. split.
        -- intros [Hj|(t & Ht & Hr)]; [exists ty; subst j; in_snoc; auto|exists t; in_snoc; tauto].
        -- intros (t & Ht & Hr). in_snoc. destruct Ht as [[Ht|[Ht|[]]]|[Ht|[Ht|[]]]]; try discriminate; try solve [right; exists t; auto].
           injection Ht as <-. left. unfold reg in *. congruence.
      * rewrite Ar. in_snoc. intuition discriminate.
      * rewrite Aa. in_snoc. intuition discriminate.
      * rewrite Ad. in_snoc. intuition discriminate.
      * intros t Ht. in_snoc. destruct Ht as [[Ht|[Ht|[]]]|[Ht|[Ht|[]]]]; try discriminate; try solve [apply Ag; auto].
        injection Ht as <-. exists i. exact R2.
    + apply wants_skip; [|discriminate]. apply (pok_same s); [congruence|exact Hp].
  - (* PCommands *)
    cbn [init_param leaves]. destruct (dassert_cases dbg (a_deferred a)) as [(E1 & E2 & ->)|(-> & E1)].
    { left. split; [exact E1|]. split; [reflexivity|]. rewrite G1. intros H. apply (H PCommands); [apply (ac_d _ _ _ Ha), E2|exact I]. }
    cbn [bind]. right. exists s, (deferred a), SUnit. split; [reflexivity|].
    split; [|split; [exact Hs|split; [apply grows_refl|split; [apply veq_refl|split; [exact I|split; [|split; [|reflexivity]]]]]]].
    + intros Hd. rewrite G1. intros q Hq Hc. destruct q; cbn in Hc; try contradiction.
      specialize (E1 Hd). apply not_true_iff_false in E1. apply E1, (ac_d _ _ _ Ha), Hq.
    + destruct Ha as [Aw Au Ar Aa Ad Ag]. split; cbn [deferred a_writes a_uses a_rall a_wall a_deferred].
      * intros j. rewrite Aw. split; intros (t & Ht & Hr); exists t; in_snoc; intuition discriminate.
      * intros j. rewrite Au. split; intros (t & Ht & Hr); exists t; in_snoc; intuition discriminate.
      * rewrite Ar. in_snoc. intuition discriminate.
      * rewrite Aa. in_snoc. intuition discriminate.
      * in_snoc. tauto.
      * intros t Ht. in_snoc. apply Ag. intuition discriminate.
    + apply wants_skip; [exact Hp|discriminate].
  - (* PBoot *)
    cbn [init_param leaves]. right. exists s, a, SUnit. split; [reflexivity|].
    split; [|split; [exact Hs|split; [apply grows_refl|split; [apply veq_refl|split; [exact I|split; [|split; [|reflexivity]]]]]]].
    + intros _. rewrite G1. intros q _ Hc. destruct q; exact Hc.
    + destruct Ha as [Aw Au Ar Aa Ad Ag]. split.
      * intros j. rewrite Aw. split; intros (t & Ht & Hr); exists t; in_snoc; intuition discriminate.
      * intros j. rewrite Au. split; intros (t & Ht & Hr); exists t; in_snoc; intuition discriminate.
      * rewrite Ar. in_snoc. intuition discriminate.
      * rewrite Aa. in_snoc. intuition discriminate.
      * rewrite Ad. in_snoc. intuition discriminate.
      * intros t Ht. in_snoc. apply Ag. intuition discriminate.
    + apply wants_skip; [exact Hp|discriminate].
  - (* PRuntime *)
    cbn [init_param leaves]. right. exists s, a, SUnit. split; [reflexivity|].
    split; [|split; [exact Hs|split; [apply grows_refl|split; [apply veq_refl|split; [exact I|split; [|split; [|reflexivity]]]]]]].
    + intros _. rewrite G1. intros q _ Hc. destruct q; exact Hc.
    + destruct Ha as [Aw Au Ar Aa Ad Ag]. split.
      * intros j. rewrite Aw. split; intros (t & Ht & Hr); exists t; in_snoc; intuition discriminate.
      * intros j. rewrite Au. split; intros (t & Ht & Hr); exists t; in_snoc; intuition discriminate.
      * rewrite Ar. in_snoc. intuition discriminate.
      * rewrite Aa. in_snoc. intuition discriminate.
      * rewrite Ad. in_snoc. intuition discriminate.
      * intros t Ht. in_snoc. apply Ag. intuition discriminate.
    + apply wants_skip; [exact Hp|discriminate].
  - (* PService *)
    cbn [init_param leaves]. destruct (register (s_service_idx s) ty) as [i m] eqn:R.
    destruct (register_service_ok s ty i m Hs R) as (W1 & Gr & V & Hi). pose proof (acc_grows _ _ _ _ Ha Gr) as A1.
    right. eexists _, a, (SIdx i). split; [reflexivity|].
    split; [|split; [exact W1|split; [exact Gr|split; [exact V|split; [exact Hi|split; [|split; [|reflexivity]]]]]]].
    + intros _. rewrite G1. intros q _ Hc. destruct q; exact Hc.
    + destruct A1 as [Aw Au Ar Aa Ad Ag]. split.
      * intros j. rewrite Aw. split; intros (t & Ht & Hr); exists t; in_snoc; intuition discriminate.
      * intros j. rewrite Au. split; intros (t & Ht & Hr); exists t; in_snoc; intuition discriminate.
      * rewrite Ar. in_snoc. intuition discriminate.
      * rewrite Aa. in_snoc. intuition discriminate.
      * rewrite Ad. in_snoc. intuition discriminate.
      * intros t Ht. in_snoc. apply Ag. intuition discriminate.
    + apply wants_skip; [apply (pok_same s); [reflexivity|exact Hp]|discriminate].
  - (* PHob *)
    cbn [init_param leaves]. destruct (register_hob (add_parser hob_guid s ty) ty) as [i s1] eqn:R.
    assert (W0 : wf (add_parser hob_guid s ty)) by (destruct Hs; split; auto).
    assert (Gr0 : grows s (add_parser hob_guid s ty)) by (split; auto).
    destruct (register_hob_ok _ _ _ _ W0 R) as (W1 & Gr & V & Hi & P1 & D1).
    pose proof (grows_trans _ _ _ Gr0 Gr) as Gr2. pose proof (acc_grows _ _ _ _ Ha Gr2) as A1.
    right. exists s1, a, (SIdx i). split; [reflexivity|].
    split; [|split; [exact W1|split; [exact Gr2|split; [|split; [exact Hi|split; [|split; [|exact D1]]]]]]].
    + intros _. rewrite G1. intros q _ Hc. destruct q; exact Hc.
    + eapply veq_trans; [exact V|]. intros t. cbn. auto.
    + destruct A1 as [Aw Au Ar Aa Ad Ag]. split.
      * intros j. rewrite Aw. split; intros (t & Ht & Hr); exists t; in_snoc; intuition discriminate.
      * intros j. rewrite Au. split; intros (t & Ht & Hr); exists t; in_snoc; intuition discriminate.
      * rewrite Ar. in_snoc. intuition discriminate.
      * rewrite Aa. in_snoc. intuition discriminate.
      * rewrite Ad. in_snoc. intuition discriminate.
      * intros t Ht. in_snoc. apply Ag. intuition discriminate.
    + apply (pok_same _ _ _ P1). eapply pok_ext; [apply add_parser_ok, Hp|]. intros t. unfold wants. cbn.
      split; [intros [H|H]; [auto|subst; auto]|intros [H|[H|[]]]; [auto|injection H; auto]].
  - (* PStorage *)
    cbn [init_param leaves]. destruct (dassert_cases dbg (has_any_config_write a)) as [(E1 & E2 & ->)|(-> & E1)].
    { left. split; [exact E1|]. split; [reflexivity|]. rewrite G1. intros H. unfold has_any_config_write in E2. apply orb_true_iff in E2.
      destruct E2 as [E2|E2]; [apply (H PStorageMut); [apply (ac_a _ _ _ Ha), E2|exact I]|].
      apply has_nonempty in E2. destruct E2 as [i Hi]. apply (ac_w _ _ _ Ha) in Hi. destruct Hi as (t & Ht & _). apply (H _ Ht). exact I. }
    cbn [bind]. right. exists s, (reads_all a), SUnit. split; [reflexivity|].
    split; [|split; [exact Hs|split; [apply grows_refl|split; [apply veq_refl|split; [exact I|split; [|split; [|reflexivity]]]]]]].
    + intros Hd. rewrite G1. specialize (E1 Hd). apply not_true_iff_false in E1. unfold has_any_config_write in E1. rewrite orb_true_iff in E1.
      intros q Hq Hc. destruct q; cbn in Hc; try contradiction.
      * apply E1. right. apply has_nonempty. destruct (ac_reg _ _ _ Ha ty (or_intror Hq)) as [i Hi]. exists i.
        apply (ac_w _ _ _ Ha). exists ty. auto.
      * apply E1. left. apply (ac_a _ _ _ Ha), Hq.
    + destruct Ha as [Aw Au Ar Aa Ad Ag]. split; cbn [reads_all a_writes a_uses a_rall a_wall a_deferred].
      * intros j. rewrite Aw. split; intros (t & Ht & Hr); exists t; in_snoc; intuition discriminate.
      * intros j. rewrite Au. split; intros (t & Ht & Hr); exists t; in_snoc; intuition discriminate.
      * in_snoc. tauto.
      * rewrite Aa. in_snoc. intuition discriminate.
      * rewrite Ad. in_snoc. intuition discriminate.
      * intros t Ht. in_snoc. apply Ag. intuition discriminate.
    + apply wants_skip; [exact Hp|discriminate].
  - (* PStorageMut *)
    cbn [init_param leaves]. destruct (dassert_cases dbg (has_any_config_write a)) as [(E1 & E2 & ->)|(-> & E1)].
    { left. split; [exact E1|]. split; [reflexivity|]. rewrite G1. intros H. unfold has_any_config_write in E2. apply orb_true_iff in E2.
      destruct E2 as [E2|E2]; [apply (H PStorageMut); [apply (ac_a _ _ _ Ha), E2|exact I]|].
      apply has_nonempty in E2. destruct E2 as [i Hi]. apply (ac_w _ _ _ Ha) in Hi. destruct Hi as (t & Ht & _). apply (H _ Ht). exact I. }
    cbn [bind].
    destruct (dassert_cases dbg (has_any_config_read a)) as [(E2 & E3 & ->)|(-> & E2)].
    { left. split; [exact E2|]. split; [reflexivity|]. rewrite G1. intros H. unfold has_any_config_read in E3. apply orb_true_iff in E3.
      destruct E3 as [E3|E3]; [apply (ac_r _ _ _ Ha) in E3; destruct E3 as [E3|E3]; apply (H _ E3); exact I|].
      apply has_nonempty in E3. destruct E3 as [i Hi]. apply (ac_u _ _ _ Ha) in Hi. destruct Hi as (t & [Ht|Ht] & _); apply (H _ Ht); exact I. }
    cbn [bind]. right. exists s, (writes_all a), SUnit. split; [reflexivity|].
    split; [|split; [exact Hs|split; [apply grows_refl|split; [apply veq_refl|split; [exact I|split; [|split; [|reflexivity]]]]]]].
    + intros Hd. rewrite G1. specialize (E1 Hd). apply not_true_iff_false in E1. unfold has_any_config_write in E1. rewrite orb_true_iff in E1.
      specialize (E2 Hd). apply not_true_iff_false in E2. unfold has_any_config_read in E2. rewrite orb_true_iff in E2.
      intros q Hq Hc. destruct q; cbn in Hc; try contradiction.
      * apply E2. right. apply has_nonempty. destruct (ac_reg _ _ _ Ha ty (or_introl Hq)) as [i Hi]. exists i.
        apply (ac_u _ _ _ Ha). exists ty. auto.
      * apply E1. right. apply has_nonempty. destruct (ac_reg _ _ _ Ha ty (or_intror Hq)) as [i Hi]. exists i.
        apply (ac_w _ _ _ Ha). exists ty. auto.
      * apply E2. left. apply (ac_r _ _ _ Ha). auto.
      * apply E1. left. apply (ac_a _ _ _ Ha), Hq.
    + destruct Ha as [Aw Au Ar Aa Ad Ag]. split; cbn [writes_all a_writes a_uses a_rall a_wall a_deferred].
      * intros j. rewrite Aw. split; intros (t & Ht & Hr); exists t; in_snoc; intuition discriminate.
      * intros j. rewrite Au. split; intros (t & Ht & Hr); exists t; in_snoc; intuition discriminate.
      * in_snoc. tauto.
      * in_snoc. tauto.
      * rewrite Ad. in_snoc. intuition discriminate.
      * intros t Ht. in_snoc. apply Ag. intuition discriminate.
    + apply wants_skip; [exact Hp|discriminate].
  - (* POption *)
    cbn [init_param leaves]. exact (IHp s a prev W Hs Ha Hp).
  - (* PPair *)
    cbn [init_param leaves]. destruct (IHp1 s a prev W Hs Ha Hp) as [(E & -> & N)|(s1 & a1 & st1 & -> & G & W1 & Gr & V & St & A1 & P1 & D1)].
    { left. split; [exact E|]. split; [reflexivity|]. rewrite good_app. tauto. }
    cbn [bind].
    destruct (IHp2 s1 a1 (prev ++ leaves p1) _ W1 A1 P1) as [(E & -> & N)|(s2 & a2 & st2 & -> & G2 & W2 & Gr2 & V2 & St2 & A2 & P2 & D2)].
    { left. split; [exact E|]. split; [reflexivity|]. rewrite good_app. tauto. }
    cbn [bind]. right. exists s2, a2, (SPair st1 st2). split; [reflexivity|].
    split; [|split; [exact W2|split; [exact (grows_trans _ _ _ Gr Gr2)|split; [|split; [|split; [|split; [|congruence]]]]]]].
    + intros Hd. rewrite good_app. auto.
    + rewrite fold_left_app. eapply veq_trans; [exact V2|]. apply init_leaves_veq, V.
    + split; [exact (st_ok_grows _ _ Gr2 _ _ St)|exact St2].
    + rewrite app_assoc. exact A2.
    + eapply pok_ext; [exact P2|]. intros t. unfold wants. rewrite in_app_iff. tauto.
Qed.

Notation initps := (init_params default hob_guid).
Lemma init_params_ok dbg : forall ps s a prev W, wf s -> acc s a prev -> pok s W ->
  init_res dbg s prev (all_leaves ps) W (fun s1 sts => Forall2 (st_ok s1) ps sts) (initps dbg s a ps).
Proof.
  induction ps as [|p t IH]; intros s a prev W Hs Ha Hp.
  - cbn. right. exists s, a, []. split; [reflexivity|].
    split; [intros _; exact I|split; [exact Hs|split; [apply grows_refl|split; [apply veq_refl|split; [constructor|split; [|split; [|reflexivity]]]]]]].
    + rewrite app_nil_r. exact Ha.
    + eapply pok_ext; [exact Hp|]. intros ty. unfold wants. cbn. tauto.
  - cbn [init_params all_leaves flat_map]. fold (all_leaves t).
    destruct (init_param_ok dbg p s a prev W Hs Ha Hp) as [(E & -> & N)|(s1 & a1 & st1 & -> & G & W1 & Gr & V & St & A1 & P1 & D1)].
    { left. split; [exact E|]. split; [reflexivity|]. rewrite good_app. tauto. }
    cbn [bind].
    destruct (IH s1 a1 (prev ++ leaves p) _ W1 A1 P1) as [(E & -> & N)|(s2 & a2 & st2 & -> & G2 & W2 & Gr2 & V2 & St2 & A2 & P2 & D2)].
    { left. split; [exact E|]. split; [reflexivity|]. rewrite good_app. tauto. }
    cbn [bind]. right. exists s2, a2, (st1 :: st2). split; [reflexivity|].
    split; [|split; [exact W2|split; [exact (grows_trans _ _ _ Gr Gr2)|split; [|split; [|split; [|split; [|congruence]]]]]]].
    + intros Hd. rewrite good_app. auto.
    + rewrite fold_left_app. eapply veq_trans; [exact V2|]. apply init_leaves_veq, V.
    + constructor; [exact (st_ok_grows _ _ Gr2 _ _ St)|exact St2].
    + rewrite app_assoc. exact A2.
    + eapply pok_ext; [exact P2|]. intros ty. unfold wants. rewrite in_app_iff. tauto.
Qed.

(** ** Components *)
Definition comp_ok (s : storage) (c : comp) : Prop := exists sts, c_state c = Some sts /\ Forall2 (st_ok s) (c_params c) sts.
Lemma comp_ok_grows s s' c : grows s s' -> comp_ok s c -> comp_ok s' c.
Proof.
  intros G (sts & E & F). exists sts. split; [exact E|]. clear E. induction F; constructor; auto. apply (st_ok_grows _ _ G). assumption.
Qed.

Lemma initialize_ok dbg s c W : wf s -> pok s W ->
  (dbg = true /\ initialize default hob_guid dbg s c = Panic /\ ~ compatible (c_params c))
  \/ exists s1 c1, initialize default hob_guid dbg s c = Ok (s1, c1) /\ (dbg = true -> compatible (c_params c))
     /\ wf s1 /\ grows s s1 /\ veq (view_of s1) (init_view default (view_of s) (c_params c)) /\ comp_ok s1 c1
     /\ pok s1 (wants W (all_leaves (c_params c))) /\ s_deferred s1 = s_deferred s
     /\ exists sts, c1 = set_state c sts.
Proof.
  intros Hs Hp. unfold initialize, compatible. rewrite <- good_pairs.
  destruct (init_params_ok dbg (c_params c) s no_access [] W Hs (acc_nil s) Hp)
    as [(E & -> & N)|(s2 & a2 & st2 & -> & G2 & W2 & Gr2 & V2 & St2 & A2 & P2 & D2)].
  { left. auto. }
  right. cbn [bind]. exists s2, (set_state c st2). split; [reflexivity|].
  split; [intros Hd; apply good_pairs, G2, Hd|]. split; [exact W2|]. split; [exact Gr2|]. split; [exact V2|]. split; [exists st2; auto|].
  split; [exact P2|]. split; [exact D2|]. exists st2. reflexivity.
Qed.
End Init.

(** ** Fetching *)
(** [ready] and [given] only depend on what is visible. *)
Lemma ready_veq s s' v w p : s_boot s' = s_boot s -> s_runtime s' = s_runtime s -> veq v w -> ready s v p -> ready s' w p.
Proof.
  intros B R E. induction p; cbn; auto; try (destruct (E ty) as (A1&A2&A3); rewrite <- ?A1, <- ?A2, <- ?A3; auto); try congruence.
  intros [H1 H2]. auto.
Qed.
Lemma given_veq s s' v w p : s_boot s' = s_boot s -> s_runtime s' = s_runtime s -> veq v w -> forall g, given s v p g -> given s' w p g.
Proof.
  intros B R E. induction p; intros g; cbn; auto; try (destruct (E ty) as (A1&A2&A3); rewrite <- ?A1, <- ?A2, <- ?A3; auto); rewrite ?B, ?R; auto.
  - intros [(H & h & K & ->)|(H & ->)]; [left|right].
    + split; [exact (ready_veq _ _ _ _ _ B R E H)|]. exists h. auto.
    + split; [|reflexivity]. intros H'. apply H. exact (ready_veq s' s _ _ _ (eq_sym B) (eq_sym R) (veq_sym _ _ E) H').
  - intros (a & b & Ha & Hb & ->). exists a, b. auto.
Qed.

Definition simple (p : param) : Prop := match p with PPair _ _ => False | _ => True end.

Lemma validate_ready s held p st b : wf s -> st_ok s p st -> simple p -> validate s held p st = Ok b -> (b = true <-> ready s (view_of s) p).
Proof.
  intros W St F H. destruct p; cbn in F; try contradiction; cbn [validate ready] in *.
  - destruct st as [i| |]; try contradiction. cbn in St. unfold borrow in H.
    destruct (sv_get (s_configs s) i) as [c|] eqn:Ec; [|discriminate]. destruct (existsb _ held); [discriminate|].
    injection H as <-. cbn. unfold cfgs, look. rewrite St, Ec. cbn. unfold cview.
    split; [intros ->; eexists; reflexivity|]. intros [x Hx]. injection Hx. auto.
  - destruct st as [i| |]; try contradiction. cbn in St. unfold borrow in H.
    destruct (sv_get (s_configs s) i) as [c|] eqn:Ec; [|discriminate]. destruct (existsb _ held); [discriminate|].
    injection H as <-. cbn. unfold cfgs, look. rewrite St, Ec. cbn. unfold cview. rewrite negb_true_iff.
    split; [intros ->; eexists; reflexivity|]. intros [x Hx]. injection Hx. auto.
  - injection H as <-. tauto.
  - injection H as <-. tauto.
  - injection H as <-. tauto.
  - destruct st as [i| |]; try contradiction. cbn in St. injection H as <-. unfold sv_contains. cbn. unfold svcs, look. rewrite St.
    destruct (sv_get (s_services s) i); cbn; split; auto; try discriminate; intros N; elim N; reflexivity.
  - destruct st as [i| |]; try contradiction. cbn in St. cbn. unfold hobz, look. rewrite St.
    destruct (sv_get (s_hobs s) i) as [l|]; [|discriminate]. injection H as <-. destruct l; cbn; split; auto; try discriminate; intros N; elim N; reflexivity.
  - injection H as <-. tauto.
  - injection H as <-. tauto.
  - injection H as <-. tauto.
Qed.

(** Fetching parameters leaves the storage as it is, apart from an empty queue for Commands. *)
Definition fetched (s s1 : storage) : Prop := s1 = s \/ (s_deferred s = None /\ s1 = with_deferred s (Some [])).
Lemma fetched_facts s s1 : fetched s s1 -> wf s -> wf s1 /\ grows s s1 /\ veq (view_of s1) (view_of s) /\ queue s1 = queue s.
Proof.
  intros [->|[E ->]] W.
  - split; [exact W|]. split; [apply grows_refl|]. split; [apply veq_refl|reflexivity].
  - destruct (with_deferred_ok s (Some []) W) as (A & B & C). split; [exact A|]. split; [exact B|]. split; [exact C|].
    unfold queue. rewrite E. reflexivity.
Qed.
Lemma fetched_trans a b c : fetched a b -> fetched b c -> fetched a c.
Proof. intros [->|[E ->]] [->|[F ->]]; [left; reflexivity|right; auto|right; auto|]. cbn in F. discriminate. Qed.

Lemma get_param_given : forall p s held st g s1 h1, wf s -> st_ok s p st -> flat p -> ready s (view_of s) p ->
  get_param s held p st = Ok (g, s1, h1) -> given s (view_of s) p g /\ fetched s s1.
Proof.
  induction p; intros s held st g s1 h1 W St F Rd H; cbn in F; try contradiction.
  - destruct st as [i| |]; try contradiction. cbn in St, H, Rd. destruct Rd as [x Hx]. revert H Hx. cbn. unfold cfgs, look, borrow. rewrite St.
    destruct (sv_get (s_configs s) i) as [c|] eqn:Ec; [|discriminate]. destruct (existsb _ held); [discriminate|].
    cbn. unfold downcast. rewrite (ty_cell _ _ _ (wf_c _ W) _ _ _ St Ec), N.eqb_refl. cbn. intros H Hx. injection H as <- <- <-.
    unfold cview in Hx. injection Hx as Hl <-. split; [|left; reflexivity]. eexists. unfold cview. rewrite Hl. split; reflexivity.
  - destruct st as [i| |]; try contradiction. cbn in St, H, Rd. destruct Rd as [x Hx]. revert H Hx. cbn. unfold cfgs, look, borrow_mut. rewrite St.
    destruct (sv_get (s_configs s) i) as [c|] eqn:Ec; [|discriminate]. destruct (existsb _ held); [discriminate|].
    cbn. unfold downcast. rewrite (ty_cell _ _ _ (wf_c _ W) _ _ _ St Ec), N.eqb_refl. cbn. intros H Hx. injection H as <- <- <-.
    unfold cview in Hx. injection Hx as Hl <-. split; [|left; reflexivity]. eexists. unfold cview. rewrite Hl. split; reflexivity.
  - cbn in H. injection H as <- <- <-. split; [reflexivity|]. destruct (s_deferred s) eqn:E; [left; reflexivity|right; auto].
  - cbn in H. injection H as <- <- <-. split; [|left; reflexivity]. cbn. auto.
  - cbn in H. injection H as <- <- <-. split; [|left; reflexivity]. cbn. auto.
  - destruct st as [i| |]; try contradiction. cbn in St, H, Rd. revert H Rd. cbn. unfold svcs, look. rewrite St.
    destruct (sv_get (s_services s) i) as [x|] eqn:Ec; [|discriminate]. unfold downcast.
    pose proof (ty_cell _ _ _ (wf_s _ W) _ _ _ St Ec) as Ht. unfold any_ty in Ht. rewrite Ht, N.eqb_refl. cbn.
    intros H _. injection H as <- <- <-. split; [|left; reflexivity]. eexists. split; reflexivity.
  - destruct st as [i| |]; try contradiction. cbn in St, H, Rd. revert H Rd. cbn. unfold hobz, look. rewrite St.
    destruct (sv_get (s_hobs s) i) as [l|] eqn:Ec; [|discriminate].
    destruct (forallb _ l); [|discriminate]. intros H Rd. injection H as <- <- <-. split; [|left; reflexivity]. auto.
  - cbn in H. injection H as <- <- <-. split; [reflexivity|left; reflexivity].
  - cbn in H. injection H as <- <- <-. split; [reflexivity|left; reflexivity].
  - cbn [get_param] in H. cbn [st_ok] in St. destruct (validate s held p st) as [b| |] eqn:V; try discriminate. cbn [bind] in H.
    assert (Sp : simple p) by (destruct p; cbn in F |- *; auto).
    pose proof (validate_ready _ _ _ _ _ W St Sp V) as Hb. destruct b.
    + destruct (get_param s held p st) as [[[g' s'] h']| |] eqn:G; try discriminate. cbn in H. injection H as <- <- <-.
      destruct (IHp _ _ _ _ _ _ W St F (proj1 Hb eq_refl) G) as [A B]. split; [|exact B]. cbn. left. split; [apply Hb; reflexivity|]. exists g'. auto.
    + injection H as <- <- <-. split; [|left; reflexivity]. cbn. right. split; [|reflexivity]. intros R. apply Hb in R. discriminate.
Qed.

(** What is borrowed belongs to the configuration parameters handed out before. *)
Definition held_ok (s : storage) (held : borrows) (prev : list param) : Prop :=
  forall i (b : bool), In (i, b) held -> exists ty, reg s ty i /\ In (if b then PConfigMut ty else PConfig ty) prev.

Lemma borrow_free s held prev ty i : wf s -> held_ok s held prev -> reg s ty i -> ~ In (PConfigMut ty) prev -> exists c, borrow s held i = Ok c /\ cfg_ty ty c /\ cfgs s ty = Some c.
Proof.
  intros W H R N. unfold borrow. pose proof (wf_cf _ W _ _ R) as Hn. destruct (sv_get (s_configs s) i) as [c|] eqn:Ec; [|contradiction].
  exists c. destruct (existsb _ held) eqn:E.
  - exfalso. apply existsb_exists in E. destruct E as ([j b] & Hin & Hb). cbn in Hb. apply andb_true_iff in Hb. destruct Hb as [Hj ->].
    apply Nat.eqb_eq in Hj. subst j. destruct (H _ _ Hin) as (t & Ht & Hp). rewrite (io_inj _ (ty_idx _ _ _ (wf_c _ W)) _ _ _ Ht R) in Hp. contradiction.
  - split; [reflexivity|]. split; [exact (ty_cell _ _ _ (wf_c _ W) _ _ _ R Ec)|]. unfold cfgs, look. rewrite R. exact Ec.
Qed.
Lemma borrow_mut_free s held prev ty i : wf s -> held_ok s held prev -> reg s ty i -> ~ In (PConfigMut ty) prev -> ~ In (PConfig ty) prev ->
  exists c, borrow_mut s held i = Ok c /\ cfg_ty ty c.
Proof.
  intros W H R N N'. unfold borrow_mut. pose proof (wf_cf _ W _ _ R) as Hn. destruct (sv_get (s_configs s) i) as [c|] eqn:Ec; [|contradiction].
  exists c. destruct (existsb _ held) eqn:E.
  - exfalso. apply existsb_exists in E. destruct E as ([j b] & Hin & Hj). cbn in Hj. apply Nat.eqb_eq in Hj. subst j.
    destruct (H _ _ Hin) as (t & Ht & Hp). rewrite (io_inj _ (ty_idx _ _ _ (wf_c _ W)) _ _ _ Ht R) in Hp. destruct b; contradiction.
  - split; [reflexivity|exact (ty_cell _ _ _ (wf_c _ W) _ _ _ R Ec)].
Qed.

Lemma validate_total s held prev p st : wf s -> st_ok s p st -> held_ok s held prev -> (forall q, In q prev -> forall l, In l (leaves p) -> ~ conflict q l) ->
  simple p -> exists b, validate s held p st = Ok b.
Proof.
  intros W St H NC F. destruct p; cbn in F; try contradiction; cbn [validate]; try (eexists; reflexivity).
  - destruct st as [i| |]; try contradiction. destruct (borrow_free s held prev ty i W H St) as (c & -> & _); [|eexists; reflexivity].
    intros Hin. apply (NC _ Hin (PConfig ty)); [left; reflexivity|reflexivity].
  - destruct st as [i| |]; try contradiction. destruct (borrow_free s held prev ty i W H St) as (c & -> & _); [|eexists; reflexivity].
    intros Hin. apply (NC _ Hin (PConfigMut ty)); [left; reflexivity|reflexivity].
  - destruct st as [i| |]; try contradiction. eexists; reflexivity.
  - destruct st as [i| |]; try contradiction. pose proof (wf_hf _ W _ _ St) as Hn. destruct (sv_get (s_hobs s) i); [eexists; reflexivity|contradiction].
Qed.

Lemma reg_fetched s s1 : fetched s s1 -> s_config_idx s1 = s_config_idx s.
Proof. intros [->|[_ ->]]; reflexivity. Qed.
Lemma held_ok_fetched s s1 held prev : fetched s s1 -> held_ok s held prev -> held_ok s1 held prev.
Proof. intros F H i b Hin. destruct (H i b Hin) as (ty & R & P). exists ty. split; [unfold reg; rewrite (reg_fetched _ _ F); exact R|exact P]. Qed.
Lemma held_ok_more s held prev more : held_ok s held prev -> held_ok s held (prev ++ more).
Proof. intros H i b Hin. destruct (H i b Hin) as (ty & R & P). exists ty. split; [exact R|]. apply in_or_app. auto. Qed.

Lemma get_param_total : forall p s held prev st, wf s -> st_ok s p st -> flat p -> ready s (view_of s) p ->
  held_ok s held prev -> (forall q, In q prev -> forall l, In l (leaves p) -> ~ conflict q l) ->
  exists g s1 h1, get_param s held p st = Ok (g, s1, h1) /\ held_ok s h1 (prev ++ leaves p).
Proof.
  induction p; intros s held prev st W St F Rd H NC; cbn in F; try contradiction.
  - destruct st as [i| |]; try contradiction. destruct (borrow_free s held prev ty i W H St) as (c & E & T & _).
    { intros Hin. apply (NC _ Hin (PConfig ty)); [left; reflexivity|reflexivity]. }
    cbn [get_param]. rewrite E. cbn [bind]. unfold downcast. rewrite T, N.eqb_refl. cbn [bind]. eexists _, _, _. split; [reflexivity|].
    intros j b [Hj|Hj]; [injection Hj as <- <-; exists ty; split; [exact St|]; apply in_or_app; right; left; reflexivity|].
    exact (held_ok_more _ _ _ _ H j b Hj).
  - destruct st as [i| |]; try contradiction. destruct (borrow_mut_free s held prev ty i W H St) as (c & E & T).
    { intros Hin. apply (NC _ Hin (PConfigMut ty)); [left; reflexivity|reflexivity]. }
    { intros Hin. apply (NC _ Hin (PConfigMut ty)); [left; reflexivity|reflexivity]. }
    cbn [get_param]. rewrite E. cbn [bind]. unfold downcast. rewrite T, N.eqb_refl. cbn [bind]. eexists _, _, _. split; [reflexivity|].
    intros j b [Hj|Hj]; [injection Hj as <- <-; exists ty; split; [exact St|]; apply in_or_app; right; left; reflexivity|].
    exact (held_ok_more _ _ _ _ H j b Hj).
  - cbn. eexists _, _, _. split; [reflexivity|apply held_ok_more, H].
  - cbn. eexists _, _, _. split; [reflexivity|apply held_ok_more, H].
  - cbn. eexists _, _, _. split; [reflexivity|apply held_ok_more, H].
  - destruct st as [i| |]; try contradiction. cbn in St, Rd. cbn [get_param]. revert Rd. unfold svcs, look. rewrite St.
    destruct (sv_get (s_services s) i) as [x|] eqn:Ec; [|intros N; elim N; reflexivity]. intros _. unfold downcast.
    pose proof (ty_cell _ _ _ (wf_s _ W) _ _ _ St Ec) as Ht. unfold any_ty in Ht. rewrite Ht, N.eqb_refl. cbn [bind].
    eexists _, _, _. split; [reflexivity|apply held_ok_more, H].
  - destruct st as [i| |]; try contradiction. cbn in St. cbn [get_param]. pose proof (wf_hf _ W _ _ St) as Hn.
    destruct (sv_get (s_hobs s) i) as [l|] eqn:Ec; [|contradiction].
    destruct (forallb (fun x : any => fst x =? ty) l) eqn:E; [eexists _, _, _; split; [reflexivity|apply held_ok_more, H]|].
    exfalso. apply not_true_iff_false in E. apply E, forallb_forall. intros x Hx. apply N.eqb_eq. exact (ty_cell _ _ _ (wf_h _ W) _ _ _ St Ec x Hx).
  - cbn. eexists _, _, _. split; [reflexivity|apply held_ok_more, H].
  - cbn. eexists _, _, _. split; [reflexivity|apply held_ok_more, H].
  - cbn [get_param leaves] in *. cbn [st_ok] in St.
    assert (Sp : simple p) by (destruct p; cbn in F |- *; auto).
    destruct (validate_total s held prev p st W St H NC Sp) as [b V]. rewrite V. cbn [bind].
    pose proof (validate_ready _ _ _ _ _ W St Sp V) as Hb. destruct b.
    + destruct (IHp s held prev st W St F (proj1 Hb eq_refl) H NC) as (g & s1 & h1 & E & Hh). rewrite E. cbn [bind]. eexists _, _, _. split; [reflexivity|exact Hh].
    + eexists _, _, _. split; [reflexivity|apply held_ok_more, H].
Qed.

(** ** The parameter list *)
Lemma try_validate_cases s : wf s -> forall ps sts, Forall2 (st_ok s) ps sts ->
  (try_validate s ps sts = Ok None /\ (Forall simple ps -> Forall (ready s (view_of s)) ps))
  \/ exists p, try_validate s ps sts = Ok (Some p) /\ In p ps /\ simple p /\ ~ ready s (view_of s) p.
Proof.
  intros W ps sts F. induction F as [|p st ps sts Hp F IH]; [left; split; [reflexivity|constructor]|].
  cbn [try_validate].
  assert (V : exists b, validate s [] p st = Ok b).
  { destruct p; try (apply (validate_total s [] [] _ st W Hp); [intros i b []|intros q []|exact I]).
    exists true. reflexivity. }
  destruct V as [b V]. rewrite V. cbn [bind]. destruct b.
  - destruct IH as [[-> IH]|(q & -> & Hq & Sq & N)]; [left|right].
    + split; [reflexivity|]. intros S0. inversion S0 as [|? ? S1 S2]; subst. constructor; [|auto]. apply (validate_ready _ _ _ _ _ W Hp S1 V). reflexivity.
    + exists q. split; [reflexivity|]. split; [right; exact Hq|auto].
  - right. exists p. split; [reflexivity|]. split; [left; reflexivity|].
    destruct p; try (split; [exact I|]; intros R; apply (validate_ready _ _ _ _ _ W Hp I V) in R; discriminate). discriminate V.
Qed.

Lemma get_params_given : forall ps s held sts gs s1, wf s -> Forall2 (st_ok s) ps sts -> Forall flat ps -> Forall (ready s (view_of s)) ps ->
  get_params s held ps sts = Ok (gs, s1) -> Forall2 (given s1 (view_of s1)) ps gs /\ fetched s s1.
Proof.
  induction ps as [|p ps IH]; intros s held sts gs s1 W F Fl Rd H; inversion F as [|? st ? sts' Hp F']; subst; cbn [get_params] in H.
  { injection H as <- <-. split; [constructor|left; reflexivity]. }
  inversion Fl; inversion Rd; subst.
  destruct (get_param s held p st) as [[[g s'] h']| |] eqn:G; try discriminate. cbn [bind] in H.
  destruct (get_params s' h' ps sts') as [[gs' s2]| |] eqn:G'; try discriminate. cbn [bind] in H. injection H as <- <-.
  destruct (get_param_given _ _ _ _ _ _ _ W Hp H2 H6 G) as [A B].
  destruct (fetched_facts _ _ B W) as (W' & Gr & V & _).
  destruct (IH s' h' sts' gs' s2 W') as [C D].
  { clear - F' Gr. induction F'; constructor; auto. apply (st_ok_grows _ _ Gr). assumption. }
  { assumption. }
  { eapply Forall_impl; [|exact H7]. intros q. apply ready_veq; [apply Gr|apply Gr|apply veq_sym, V]. }
  { exact G'. }
  split; [|exact (fetched_trans _ _ _ B D)]. constructor; [|exact C].
  destruct (fetched_facts _ _ (fetched_trans _ _ _ B D) W) as (_ & Gr2 & V2 & _).
  apply (given_veq s s2 (view_of s)); [apply Gr2|apply Gr2|apply veq_sym, V2|exact A].
Qed.

Lemma get_params_total : forall ps s held prev sts, wf s -> Forall2 (st_ok s) ps sts -> Forall flat ps -> Forall (ready s (view_of s)) ps ->
  held_ok s held prev -> good prev (all_leaves ps) -> exists gs s1, get_params s held ps sts = Ok (gs, s1).
Proof.
  induction ps as [|p ps IH]; intros s held prev sts W F Fl Rd H G; inversion F as [|? st ? sts' Hp F']; subst; cbn [get_params].
  { eexists _, _. reflexivity. }
  inversion Fl; inversion Rd; subst. cbn [all_leaves flat_map] in G. fold (all_leaves ps) in G. apply good_app in G. destruct G as [G1 G2].
  destruct (get_param_total p s held prev st W Hp) as (g & s' & h' & E & Hh); auto.
  { apply good_split in G1. destruct G1 as [G1 _]. auto. }
  rewrite E. cbn [bind]. destruct (get_param_given _ _ _ _ _ _ _ W Hp ltac:(assumption) ltac:(assumption) E) as [_ B].
  destruct (fetched_facts _ _ B W) as (W' & Gr & V & _).
  destruct (IH s' h' (prev ++ leaves p) sts' W') as (gs & s2 & E2); auto.
  { clear - F' Gr. induction F'; constructor; auto. apply (st_ok_grows _ _ Gr). assumption. }
  { eapply Forall_impl; [|eassumption]. intros q. apply ready_veq; [apply Gr|apply Gr|apply veq_sym, V]. }
  { apply (held_ok_fetched _ _ _ _ B), Hh. }
  rewrite E2. eexists _, _. reflexivity.
Qed.
