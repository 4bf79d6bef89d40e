(** Loading, and the invariant over whole runs. *)
From Verif Require Import Base.Prelude Base.Omap Protocol.Model Protocol.Spec Protocol.Proofs Protocol.Usage
  Protocol.Services Protocol.SvcProofs Protocol.Props Image.Model Image.Spec Image.Close Image.Proofs.
Local Open Scope N_scope.

(** What [authenticate_image] finds and concludes. *)
Lemma find_protocol_ok d g : shist d ->
  let '(b, d') := find_protocol d g in
  shist d' /\ keeps d d' /\ shrinks d d' /\ (b = true <-> usable (fst d) g).
Proof.
  intros H. unfold find_protocol. destruct (call_same d (OLocateProtocol g) H Logic.I) as (H1 & K1 & S1).
  pose proof (protocol_locate_protocol _ _ g H) as L. unfold call in *.
  destruct (pstep (snd d) (OLocateProtocol g)) as [r d']. cbn [snd] in *.
  destruct r; try contradiction.
  - destruct L as (_ & h & Hi & Hm). split; [exact H1|]. split; [exact K1|]. split; [exact S1|]. unfold usable. split.
    + intros X. exists h, i. split; [exact Hi|]. split; [destruct (N.eqb_spec i 0); [discriminate|assumption]|exact Hm].
    + intros (h' & i' & Hi' & Hz & Hm'). assert (h = h').
      { pose proof (Hm _ _ Hi'). pose proof (Hm' _ _ Hi). lia. }
      subst h'. rewrite Hi in Hi'. injection Hi' as <-. destruct (N.eqb_spec i 0); [contradiction|reflexivity].
  - destruct L as (_ & _ & Hn). split; [exact H1|]. split; [exact K1|]. split; [exact S1|]. unfold usable.
    split; [discriminate|]. intros (h & i & Hi & _). rewrite Hn in Hi. discriminate.
Qed.

Lemma usable_keeps d d' g : keeps d d' -> (usable (fst d') g <-> usable (fst d) g).
Proof.
  intros K. unfold usable. split; intros (h & i & A & B & C); exists h, i.
  - rewrite K in A. split; [exact A|]. split; [exact B|]. intros h' i' X. apply (C h' i'). rewrite K. exact X.
  - rewrite K. split; [exact A|]. split; [exact B|]. intros h' i' X. apply (C h' i'). rewrite <- K. exact X.
Qed.

Lemma authenticate_ok d fv a2 a1 : shist d ->
  let '(r, d') := authenticate d fv a2 a1 in
  shist d' /\ keeps d d' /\ shrinks d d' /\
  match r with
  | Ok v => verdict (fst d) fv a2 a1 v
  | Panic => usable (fst d) SECURITY2 /\ ~ usable (fst d) SECURITY /\ a2 = None /\ fv = true
  | Err _ => False
  end.
Proof.
  intros H. unfold authenticate. pose proof (find_protocol_ok d SECURITY2 H) as F2.
  destruct (find_protocol d SECURITY2) as [b2 d1]. destruct F2 as (H1 & K1 & S1 & B2).
  pose proof (find_protocol_ok d1 SECURITY H1) as F1.
  destruct (find_protocol d1 SECURITY) as [b1 d2]. destruct F1 as (H2 & K2 & S2 & B1).
  rewrite (usable_keeps _ _ _ K1) in B1.
  split; [exact H2|]. split; [exact (keeps_trans _ _ _ K1 K2)|]. split; [exact (shrinks_trans _ _ _ S1 S2)|].
  unfold verdict. destruct b2.
  - assert (U2 : usable (fst d) SECURITY2) by (apply B2; reflexivity). destruct a2 as [e|].
    + right. left. split; [exact U2|]. split; [discriminate|reflexivity].
    + destruct fv.
      * destruct b1; [|split; [exact U2|]; split; [|auto]; intros X; apply B1 in X; discriminate].
        right. right. right. left. split; [apply B1; reflexivity|]. auto.
      * right. right. left. auto.
  - assert (U2 : ~ usable (fst d) SECURITY2) by (intros X; apply B2 in X; discriminate). destruct b1.
    + right. right. right. right. split; [exact U2|]. split; [apply B1; reflexivity|reflexivity].
    + left. split; [exact U2|]. split; [intros X; apply B1 in X; discriminate|reflexivity].
Qed.

(** The database part of a successful load. *)
Record load_db (d d' : pstate) (h : N) (info path : N) (hii : option N) : Prop := MkLdb {
  l_new : ~ live (fst d) h;
  l_zero : h <> 0;
  l_inst : forall h' g', installed (fst d') h' g' =
    if h' =? h then
      (if g' =? LOADED_IMAGE then Some info else if g' =? LOADED_IMAGE_DEVICE_PATH then Some path
       else if g' =? HII_PACKAGE_LIST then hii else None)
    else installed (fst d) h' g' }.

Lemma not_live_none d h g : ~ live d h -> installed d h g = None.
Proof. intros L. destruct (installed d h g) eqn:E; [|reflexivity]. exfalso. apply L. exists g. eauto. Qed.

Lemma load_installs_hist env d h path hii : shist d -> shist (snd (load_installs env d h path hii)).
Proof.
  intros H. unfold load_installs. pose proof (core_install_hist env d (Some h) LOADED_IMAGE_DEVICE_PATH path H) as H1.
  destruct (core_install env d (Some h) LOADED_IMAGE_DEVICE_PATH path) as [[st k] d1]. cbn [snd] in H1.
  destruct st; try exact H1. destruct hii as [r|]; [|exact H1].
  pose proof (core_install_hist env d1 (Some h) HII_PACKAGE_LIST r H1) as H2.
  destruct (core_install env d1 (Some h) HII_PACKAGE_LIST r) as [[st k2] d2]. exact H2.
Qed.
Lemma load_installs_no_panic env d h path hii : shist d -> fst (load_installs env d h path hii) <> Panicked.
Proof.
  intros H. unfold load_installs. pose proof (core_install_hist env d (Some h) LOADED_IMAGE_DEVICE_PATH path H) as H1.
  pose proof (core_install_no_panic env d (Some h) LOADED_IMAGE_DEVICE_PATH path H) as P1.
  destruct (core_install env d (Some h) LOADED_IMAGE_DEVICE_PATH path) as [[st k] d1]. cbn [fst snd] in H1, P1.
  destruct st; try (cbn; congruence). destruct hii as [r|]; [|cbn; congruence].
  pose proof (core_install_no_panic env d1 (Some h) HII_PACKAGE_LIST r H1) as P2.
  destruct (core_install env d1 (Some h) HII_PACKAGE_LIST r) as [[st k2] d2]. exact P2.
Qed.

Lemma load_installs_quiet env d d1 h info path hii : quiet env -> shist d1 -> ~ live (fst d) h -> h <> 0 ->
  (forall h' g', installed (fst d1) h' g' = if (h' =? h) && (g' =? LOADED_IMAGE) then Some info else installed (fst d) h' g') ->
  fst (load_installs env d1 h path hii) = Success /\
  load_db d (snd (load_installs env d1 h path hii)) h info path hii.
Proof.
  intros Q H Hn Hz Hi. unfold load_installs.
  assert (L1 : live (fst d1) h). { exists LOADED_IMAGE, info. rewrite Hi, !N.eqb_refl. reflexivity. }
  assert (N1 : installed (fst d1) h LOADED_IMAGE_DEVICE_PATH = None).
  { rewrite Hi, N.eqb_refl. replace (LOADED_IMAGE_DEVICE_PATH =? LOADED_IMAGE) with false by reflexivity. apply not_live_none, Hn. }
  destruct (core_install_some_ok env d1 h LOADED_IMAGE_DEVICE_PATH path Q H L1 N1) as (d2 & -> & H2 & I2).
  destruct hii as [r|].
  - assert (L2 : live (fst d2) h). { exists LOADED_IMAGE_DEVICE_PATH, path. rewrite I2, !N.eqb_refl. reflexivity. }
    assert (N2 : installed (fst d2) h HII_PACKAGE_LIST = None).
    { rewrite I2, N.eqb_refl. replace (HII_PACKAGE_LIST =? LOADED_IMAGE_DEVICE_PATH) with false by reflexivity.
      rewrite Hi, N.eqb_refl. replace (HII_PACKAGE_LIST =? LOADED_IMAGE) with false by reflexivity. apply not_live_none, Hn. }
    destruct (core_install_some_ok env d2 h HII_PACKAGE_LIST r Q H2 L2 N2) as (d3 & -> & H3 & I3). cbn [fst snd].
    split; [reflexivity|]. constructor; [exact Hn|exact Hz|]. intros h' g'. rewrite I3, I2, Hi.
    destruct (N.eqb_spec h' h) as [->|Eh]; cbn [andb]; [|reflexivity].
    destruct (N.eqb_spec g' HII_PACKAGE_LIST) as [->|E1]; [reflexivity|].
    destruct (N.eqb_spec g' LOADED_IMAGE_DEVICE_PATH) as [->|E2]; [reflexivity|].
    destruct (g' =? LOADED_IMAGE); [reflexivity|]. apply not_live_none, Hn.
  - cbn [fst snd]. split; [reflexivity|]. constructor; [exact Hn|exact Hz|]. intros h' g'. rewrite I2, Hi.
    destruct (N.eqb_spec h' h) as [->|Eh]; cbn [andb]; [|reflexivity].
    destruct (N.eqb_spec g' LOADED_IMAGE_DEVICE_PATH) as [->|E2]; [reflexivity|].
    destruct (g' =? LOADED_IMAGE); [reflexivity|]. destruct (g' =? HII_PACKAGE_LIST); apply not_live_none, Hn.
Qed.

(** What a load does to the state. *)
Record load_same (s s' : ist) : Prop := MkLs {
  ls_hist : shist (i_db s');
  ls_cur : i_cur s' = i_cur s;
  ls_ctx : i_ctx s' = i_ctx s;
  ls_next : i_next s' = i_next s }.

Inductive load_case (env : penv) (s : ist) (a : load_args) : out -> ist -> Prop :=
| LC_loaded s' h p sec fv copy : load_same s s' -> la_pe a = inr p ->
    (la_buffer a = true /\ fv = false \/ la_buffer a = false /\ la_fetch a = inr fv) ->
    (la_path a = 0 /\ copy = 0 \/ la_path a <> 0 /\ la_copy a = inr copy) ->
    live (fst (i_db s)) (la_parent a) -> (exists i, installed (fst (i_db s)) (la_parent a) LOADED_IMAGE = Some i) ->
    verdict (fst (i_db s)) fv (la_ans2 a) (la_ans1 a) sec ->
    i_imgs s' = om_set (i_imgs s) h (new_image p (la_path a)) ->
    i_dbg s' = i_dbg s ++ [h] ->
    i_rt s' = (if pe_kind p =? RUNTIME_DRIVER then i_rt s ++ [h] else i_rt s) ->
    (quiet env -> load_db (i_db s) (i_db s') h (pe_info p) copy (pe_hii p)) ->
    load_case env s a (Loaded h (match sec with Some e => code e | None => 0 end)) s'
| LC_failed s' o : load_same s s' -> i_imgs s' = i_imgs s -> (forall h st, o <> Loaded h st) -> (forall h, o <> Entered h) -> o <> Wild ->
    (o = Crashed -> usable (fst (i_db s)) SECURITY2 /\ ~ usable (fst (i_db s)) SECURITY /\
                    la_buffer a = false /\ la_fetch a = inr true) ->
    (exists l, i_dbg s' = i_dbg s ++ l) -> (exists l, i_rt s' = i_rt s ++ l) ->
    load_case env s a o s'.

Lemma load_finish_case env s0 s a p sec fv :
  shist (i_db s) -> keeps (i_db s0) (i_db s) -> rest_eq s0 s -> la_pe a = inr p ->
  (la_buffer a = true /\ fv = false \/ la_buffer a = false /\ la_fetch a = inr fv) ->
  live (fst (i_db s0)) (la_parent a) -> (exists i, installed (fst (i_db s0)) (la_parent a) LOADED_IMAGE = Some i) ->
  verdict (fst (i_db s0)) fv (la_ans2 a) (la_ans1 a) sec ->
  load_case env s0 a (fst (load_finish env s a p sec)) (snd (load_finish env s a p sec)).
Proof.
  intros H K (R1 & R2 & R3 & R4 & R5 & R6) Ep Ef Lp Ip Vd. unfold load_finish.
  pose proof (core_install_hist env (i_db s) None LOADED_IMAGE (pe_info p) H) as H1.
  pose proof (core_install_no_panic env (i_db s) None LOADED_IMAGE (pe_info p) H) as P1.
  assert (Q1 : quiet env -> let '(st, k, s') := core_install env (i_db s) None LOADED_IMAGE (pe_info p) in
    match st, k with Success, Some key => key <> 0 /\ ~ live (fst (i_db s)) key /\
       forall h' g', installed (fst s') h' g' = if (h' =? key) && (g' =? LOADED_IMAGE) then Some (pe_info p) else installed (fst (i_db s)) h' g'
    | _, _ => True end).
  { intros Q. pose proof (core_install_quiet env (i_db s) None LOADED_IMAGE (pe_info p) Q H) as C.
    destruct (core_install env (i_db s) None LOADED_IMAGE (pe_info p)) as [[st k] s']. destruct st; auto. destruct k; auto. tauto. }
  assert (Fail : forall o d l1 l2, (forall h st, o <> Loaded h st) -> (forall h, o <> Entered h) -> o <> Wild -> o <> Crashed -> shist d ->
     load_case env s0 a o (MkSt d (i_imgs s) (i_cur s) (i_ctx s) (i_dbg s ++ l1) (i_rt s ++ l2) (i_next s))).
  { intros o d l1 l2 O1 O0 O2 O3 Hd. apply LC_failed; auto; cbn [i_dbg i_rt i_imgs]; try congruence.
    - constructor; cbn; auto.
    - exists l1. rewrite R4. reflexivity.
    - exists l2. rewrite R5. reflexivity. }
  destruct (core_install env (i_db s) None LOADED_IMAGE (pe_info p)) as [[st k] d1]. cbn [fst snd] in H1, P1.
  assert (Fail1 : st <> Success \/ k = None -> load_case env s0 a (fst (of_pstatus st, set_db s d1)) (snd (of_pstatus st, set_db s d1))).
  { intros _. cbn [fst snd]. pose proof (Fail (of_pstatus st) d1 [] []) as F. rewrite !app_nil_r in F.
    unfold set_db. apply F; try exact H1; destruct st; cbn; try congruence. }
  destruct st; try (apply Fail1; left; congruence). destruct k as [h|]; [|apply Fail1; right; reflexivity].
  clear Fail1.
  destruct (if la_path a =? 0 then inr 0 else la_copy a) as [e|copy] eqn:Ec.
  - cbn [fst snd]. pose proof (Fail (Returned (code e) None) d1 [h] []) as F. rewrite app_nil_r in F. apply F; congruence.
  - set (s2 := if pe_kind p =? RUNTIME_DRIVER then _ else _).
    assert (E2 : i_db s2 = d1 /\ i_imgs s2 = i_imgs s /\ i_cur s2 = i_cur s /\ i_ctx s2 = i_ctx s /\ i_dbg s2 = i_dbg s ++ [h] /\
       i_rt s2 = (if pe_kind p =? RUNTIME_DRIVER then i_rt s ++ [h] else i_rt s) /\ i_next s2 = i_next s).
    { unfold s2. destruct (pe_kind p =? RUNTIME_DRIVER); repeat apply conj; reflexivity. }
    destruct E2 as (E1 & E2 & E3 & E4 & E5 & E6 & E7). rewrite E1.
    pose proof (load_installs_hist env d1 h copy (pe_hii p) H1) as H2.
    pose proof (load_installs_no_panic env d1 h copy (pe_hii p) H1) as P2.
    assert (Q2 : quiet env -> load_db (i_db s0) (snd (load_installs env d1 h copy (pe_hii p))) h (pe_info p) copy (pe_hii p)).
    { intros Q. destruct (Q1 Q) as (A & B & C). apply load_installs_quiet; auto.
      - rewrite (keeps_live _ _ _ K) in B. exact B.
      - intros h' g'. rewrite C, K. reflexivity. }
    destruct (load_installs env d1 h copy (pe_hii p)) as [st2 d2]. cbn [fst snd] in H2, P2, Q2.
    assert (Fl : forall o, (forall h st, o <> Loaded h st) -> (forall h, o <> Entered h) -> o <> Wild -> o <> Crashed -> load_case env s0 a o (set_db s2 d2)).
    { intros o O1 O0 O2 O3. apply LC_failed; auto; cbn [set_db i_imgs i_dbg i_rt]; try congruence.
      - constructor; cbn [set_db i_db i_cur i_ctx i_next]; congruence.
      - exists [h]. congruence.
      - rewrite E6, R5. destruct (pe_kind p =? RUNTIME_DRIVER); [exists [h]; reflexivity|exists []; rewrite app_nil_r; reflexivity]. }
    destruct st2; cbn [fst snd of_pstatus]; try (apply Fl; cbn; congruence).
    eapply LC_loaded with (copy := copy); eauto; cbn [set_imgs set_db i_db i_imgs i_dbg i_rt i_cur i_ctx i_next]; try congruence.
    + constructor; cbn [set_imgs set_db i_db i_cur i_ctx i_next]; congruence.
    + destruct (la_path a =? 0) eqn:Z; [left|right].
      * apply N.eqb_eq in Z. split; [exact Z|]. congruence.
      * apply N.eqb_neq in Z. auto.
    + rewrite E6, R5. reflexivity.
Qed.

Lemma do_load_case env s a o s' : shist (i_db s) -> do_load env s a = (o, s') -> load_case env s a o s'.
Proof.
  intros H E.
  assert (Fail : forall e s1, rest_eq s s1 -> shist (i_db s1) -> load_case env s a (Returned (code e) None) s1).
  { intros e s1 (R1 & R2 & R3 & R4 & R5 & R6) H1. apply LC_failed; try congruence.
    - constructor; congruence.
    - exists []. rewrite app_nil_r. exact R4.
    - exists []. rewrite app_nil_r. exact R5. }
  unfold do_load in E. destruct (negb (la_buffer a) && (la_path a =? 0)).
  { apply pair_equal_spec in E. destruct E as [<- <-]. apply Fail; [repeat apply conj; reflexivity|exact H]. }
  destruct (db_call s (OValidate (la_parent a))) as [v s1] eqn:V. apply db_call_rest in V. destruct V as (R1 & Ed & Ev).
  destruct (call_same (i_db s) (OValidate (la_parent a)) H Logic.I) as (H1 & K1 & _). rewrite <- Ed in H1, K1.
  destruct (validate_call (i_db s) (la_parent a) H) as [Va Vb]. destruct (live_dec (i_db s) (la_parent a) H) as [L|L];
    [rewrite (Va L) in Ev|rewrite (Vb L) in Ev]; subst v.
  2: { apply pair_equal_spec in E. destruct E as [<- <-]. apply Fail; assumption. }
  destruct (db_call s1 (OGetInterface (la_parent a) LOADED_IMAGE)) as [v s2] eqn:V. apply db_call_rest in V. destruct V as (R2 & Ed2 & Ev2).
  destruct (call_same (i_db s1) (OGetInterface (la_parent a) LOADED_IMAGE) H1 Logic.I) as (H2 & K2 & _). rewrite <- Ed2 in H2, K2.
  assert (R12 : rest_eq s s2).
  { destruct R1 as (A1 & A2 & A3 & A4 & A5 & A6). destruct R2 as (B1 & B2 & B3 & B4 & B5 & B6). unfold rest_eq. repeat apply conj; congruence. }
  destruct v; try (apply pair_equal_spec in E; destruct E as [<- <-]; apply Fail; assumption).
  assert (Ip : installed (fst (i_db s)) (la_parent a) LOADED_IMAGE = Some i).
  { rewrite <- K1. destruct (call (i_db s1) (OGetInterface (la_parent a) LOADED_IMAGE)) as [r0 d0] eqn:C. cbn [fst] in Ev2. subst r0.
    eapply get_interface_call; eassumption. }
  destruct (if la_buffer a then inr false else la_fetch a) as [e|fv] eqn:Ef.
  { apply pair_equal_spec in E. destruct E as [<- <-]. apply Fail; assumption. }
  assert (Ef' : la_buffer a = true /\ fv = false \/ la_buffer a = false /\ la_fetch a = inr fv).
  { destruct (la_buffer a); [left|right]; split; congruence. }
  pose proof (authenticate_ok (i_db s2) fv (la_ans2 a) (la_ans1 a) H2) as Au.
  assert (U : forall g, usable (fst (i_db s2)) g <-> usable (fst (i_db s)) g).
  { intros g. apply usable_keeps. exact (keeps_trans _ _ _ K1 K2). }
  destruct (authenticate (i_db s2) fv (la_ans2 a) (la_ans1 a)) as [r d3]. destruct Au as (H3 & K3 & _ & Au).
  destruct r as [sec|e|]; [|contradiction|].
  2: { apply pair_equal_spec in E. destruct E as [<- <-]. destruct R12 as (A1 & A2 & A3 & A4 & A5 & A6).
       apply LC_failed; try congruence.
       - constructor; cbn [set_db i_db i_cur i_ctx i_next]; assumption.
       - exact A1.
       - intros _. rewrite !U in Au. destruct Au as (U2 & U1 & _ & ->). split; [exact U2|]. split; [exact U1|].
         destruct Ef' as [[_ X]|X]; [discriminate|exact X].
       - exists []. rewrite app_nil_r. exact A4.
       - exists []. rewrite app_nil_r. exact A5. }
  assert (R3 : rest_eq s (set_db s2 d3)) by exact R12.
  destruct (la_fix a) as [e|]; [apply pair_equal_spec in E; destruct E as [<- <-]; apply Fail; assumption|].
  destruct (la_pe a) as [e|p] eqn:Ep; [apply pair_equal_spec in E; destruct E as [<- <-]; apply Fail; assumption|].
  assert (K : keeps (i_db s) (i_db (set_db s2 d3))) by exact (keeps_trans _ _ _ (keeps_trans _ _ _ K1 K2) K3).
  pose proof (load_finish_case env s (set_db s2 d3) a p sec fv H3 K R3 Ep Ef' L (ex_intro _ i Ip)) as F.
  rewrite E in F. cbn [fst snd] in F. apply F.
  unfold verdict in *. rewrite !U in Au. exact Au.
Qed.

(** ** Every polite step keeps the invariant *)
Lemma load_case_inv env s stk a o s' : inv s stk -> (forall h st, o = Loaded h st -> ~ In h (fhs stk)) ->
  load_case env s a o s' -> o <> Wild /\ (~ fatal o -> inv s' stk).
Proof.
  intros I Hn C. destruct C as [s' h p sec fv copy Sm Ep Ef Ec Lp Ip Vd Ei Ed Er Q|s' o Sm Ei O1 O0 O2 O3 Ed Er].
  - split; [discriminate|]. intros _. destruct Sm. destruct I. specialize (Hn _ _ eq_refl).
    constructor; rewrite ?ls_cur0, ?ls_ctx0, ?ls_next0, ?Ei; auto.
    + apply om_sorted_set, v_sort.
    + rewrite Forall_forall in *. intros f Hf. apply (frame_ok_get s); [|apply v_frames, Hf]. rewrite Ei, om_get_set.
      destruct (fh f =? h) eqn:X; [|reflexivity]. exfalso. apply Hn. apply N.eqb_eq in X. rewrite <- X. apply in_map, Hf.
    + intros h' im' G'. rewrite om_get_set in G'. destruct (h' =? h); [|eapply v_fresh, G']. injection G' as <-. reflexivity.
  - split; [exact O2|]. intros _. destruct Sm. destruct I. constructor; rewrite ?ls_cur0, ?ls_ctx0, ?ls_next0, ?Ei; auto.
    eapply Forall_impl; [|exact v_frames]. intros f. apply frame_ok_get. rewrite Ei. reflexivity.
Qed.

Definition load_crash (s : ist) (a : act) : Prop :=
  exists l, a = ALoad l /\ usable (fst (i_db s)) SECURITY2 /\ ~ usable (fst (i_db s)) SECURITY /\
            la_buffer l = false /\ la_fetch l = inr true.

Lemma step_inv fuel env s stk a o s' stk' : inv s stk -> polite stk a o ->
  istep fuel env s stk a = (o, s', stk') ->
  o <> Wild /\ (o = Crashed -> load_crash s a) /\ (~ fatal o -> inv s' stk').
Proof.
  intros I P E. destruct a as [l|h mem|h mem|h|h st data|st|h b|q]; cbn [istep] in E; cbn [polite] in P.
  - destruct (do_load env s l) as [o1 s1] eqn:L. eq3 E. apply do_load_case in L; [|apply (v_hist _ _ I)].
    destruct (load_case_inv env s stk' l o s' I) as [A B].
    { intros h st X. rewrite <- busy_fhs. apply (P h st X). } { exact L. }
    split; [exact A|]. split; [|exact B]. intros X. exists l. split; [reflexivity|]. destruct L; [discriminate|]. auto.
  - rewrite busy_fhs in P. destruct (do_start_inv fuel env s stk h true mem o s' stk' I (fun _ => P) E) as (A & B & C).
    split; [exact A|]. split; [contradiction|exact C].
  - destruct (do_start_inv fuel env s stk h false mem o s' stk' I ltac:(discriminate) E) as (A & B & C).
    split; [exact A|]. split; [contradiction|exact C].
  - rewrite busy_fhs in P. apply do_unload_case in E; [|apply (v_hist _ _ I)].
    destruct (unload_case_inv _ _ _ _ _ _ _ _ _ _ I P E) as (A & B & C). split; [exact A|]. split; [contradiction|exact C].
  - destruct (do_exit_inv fuel env s stk h st data o s' stk' I E) as (A & B & C). split; [exact A|]. split; [contradiction|exact C].
  - destruct stk as [|[id h prev svc|h k] below].
    + eq3 E. split; [discriminate|]. split; [discriminate|]. auto.
    + rewrite (entry_returned_eq fuel env s below id h prev svc st I) in E. cbv zeta in E.
      pose proof (v_link _ _ I) as [Lp Lb].
      destruct (resumed_inv s _ h (0, 0) [] id prev svc below I eq_refl eq_refl Lp Lb) as [I1 Hn].
      destruct svc.
      * destruct (after_start_inv fuel env _ _ _ _ _ _ _ I1 Hn E) as (A & B & C). split; [exact A|]. split; [contradiction|exact C].
      * eq3 E. split; [discriminate|]. split; [discriminate|]. auto.
    + assert (I1 : inv s below).
      { destruct I. cbn [fhs map fh] in v_hs. apply NoDup_cons_iff in v_hs. apply Forall_cons_iff in v_frames.
        constructor; auto; tauto. }
      assert (Hn : ~ In h (fhs below)). { pose proof (v_hs _ _ I) as N. apply NoDup_cons_iff in N. apply N. }
      pose proof (v_frames _ _ I) as Fr. apply Forall_cons_iff in Fr. destruct Fr as [(im & G & _) _]. cbn [fh] in G.
      unfold unload_returned in E. destruct (st =? 0).
      * unfold finish_unload in E. destruct (remove_image_ok fuel env s h im (v_hist _ _ I) G) as [(s2 & Er)|(s2 & Er & Rm & Edb)];
          rewrite Er in E; eq3 E.
        -- split; [discriminate|]. split; [discriminate|]. intros F. exfalso. apply F. right. right. reflexivity.
        -- split; [destruct k; discriminate|]. split; [destruct k; discriminate|]. intros _. eapply inv_removed; eauto.
           rewrite Edb. apply gone_db_hist, (v_hist _ _ I).
      * eq3 E. split; [destruct k; discriminate|]. split; [destruct k; discriminate|]. auto.
  - eq3 E. split; [discriminate|]. split; [discriminate|]. intros _. destruct I.
    assert (Gu : forall h', om_get (om_upd (i_imgs s) h (set_unload b)) h' =
       if h' =? h then option_map (set_unload b) (om_get (i_imgs s) h') else om_get (i_imgs s) h').
    { intros h'. rewrite om_get_upd. destruct (N.eqb_spec h' h) as [->|]; reflexivity. }
    constructor; cbn [set_imgs i_db i_imgs i_ctx i_cur i_next]; auto.
    + apply om_sorted_upd, v_sort.
    + eapply Forall_impl; [|exact v_frames]. intros f (im & G & St & X). unfold frame_ok. cbn [set_imgs i_imgs]. rewrite Gu, G.
      destruct (fh f =? h); cbn [option_map]; [exists (set_unload b im)|exists im]; auto.
    + intros h' im' G. rewrite Gu in G. destruct (om_get (i_imgs s) h') as [im|] eqn:G0; [|destruct (h' =? h); discriminate].
      specialize (v_fresh _ _ G0). destruct (h' =? h); cbn [option_map] in G; injection G as <-; exact v_fresh.
  - destruct (db_call s q) as [r s1] eqn:V. apply db_call_rest in V. destruct V as (R & Ed & Ev).
    pose proof (call_no_panic (i_db s) q (v_hist _ _ I)) as NP. rewrite <- Ev in NP.
    eq3 E. assert (I1 : inv s' stk'). { eapply inv_rest; eauto. rewrite Ed. apply call_hist, (v_hist _ _ I). }
    destruct (fst (call (i_db s) q)); try congruence; (split; [discriminate|]; split; [discriminate|]; auto).
Qed.

Lemma init_inv d info mem : shist d -> inv (init_images d info mem) [].
Proof.
  intros H. constructor; cbn [init_images i_db i_imgs i_ctx i_cur i_next ids entries hd_error linked fhs map]; auto.
  - repeat constructor.
  - constructor.
  - constructor.
  - intros h im. cbn [om_get]. destruct (h =? CORE_HANDLE); [|discriminate]. intros X. injection X as <-. discriminate.
Qed.

Lemma polite_inv fuel env d0 info mem tr s stk : polite_runs fuel env d0 info mem tr s stk -> inv s stk.
Proof.
  induction 1 as [H|tr s stk a o s' stk' R IH P E F]; [apply init_inv; assumption|].
  destruct (step_inv fuel env s stk a o s' stk' IH P E) as (_ & _ & X). apply X, F.
Qed.
