(** Invariants of the image services. *)
From Verif Require Import Base.Prelude Base.Omap Protocol.Model Protocol.Spec Protocol.Proofs Protocol.Usage
  Protocol.Services Protocol.SvcProofs Protocol.Props Image.Model Image.Spec Image.Close.
Local Open Scope N_scope.

Ltac eq3 E :=
  apply pair_equal_spec in E; let E2 := fresh in destruct E as [E E2]; apply pair_equal_spec in E;
  let E1 := fresh in destruct E as [E E1]; subst.

(** ** The protocol services never panic *)
Lemma call_no_panic s o : shist s -> fst (call s o) <> OutPanic.
Proof.
  intros H. unfold call. pose proof (protocol_no_panic _ _ o H) as P. destruct (pstep (snd s) o). exact P.
Qed.
Lemma of_out_panic r : r <> OutPanic -> of_out r <> Panicked.
Proof. destruct r; cbn; congruence. Qed.
Lemma usages_of_no_panic s h g : shist s -> fst (fst (usages_of s h g)) <> Panicked.
Proof.
  intros H. unfold usages_of. pose proof (call_no_panic s (OOpenInfo h g) H) as P.
  destruct (call s (OOpenInfo h g)) as [r s1]. cbn [fst] in P. destruct r; cbn; try congruence. destruct e; cbn; congruence.
Qed.
Lemma disc_loop_no_panic fuel env h g : forall s, shist s -> fst (fst (disc_loop fuel env s h g)) <> Panicked.
Proof.
  induction fuel as [|f IH]; intros s H; cbn [disc_loop]; [cbn; congruence|].
  pose proof (usages_of_hist s h g H) as H1. pose proof (usages_of_no_panic s h g H) as P.
  destruct (usages_of s h g) as [[st us] s1]. cbn [fst snd] in H1, P. destruct st; try (cbn; congruence).
  destruct (find _ us) as [u|]; [|cbn; congruence]. destruct (e_disc env (fst s1) h (u_agent u)) as [ok ops].
  destruct ok; [|cbn; congruence]. apply IH, calls_hist, H1.
Qed.
Lemma core_uninstall_no_panic fuel env s h g i : shist s -> fst (core_uninstall fuel env s h g i) <> Panicked.
Proof.
  intros H. unfold core_uninstall. pose proof (call_no_panic s (OGetInterface h g) H) as P.
  pose proof (call_hist s (OGetInterface h g) H) as H1. destruct (call s (OGetInterface h g)) as [r s1]. cbn [fst snd] in P, H1.
  destruct r; try (cbn; congruence).
  destruct (negb (i0 =? i)); [cbn; congruence|].
  pose proof (disc_loop_hist fuel env h g s1 H1) as H2. pose proof (disc_loop_no_panic fuel env h g s1 H1) as P2.
  destruct (disc_loop fuel env s1 h g) as [[st b] s2]. cbn [fst snd] in H2, P2.
  destruct st; try (cbn; congruence).
  assert (F : forall s2 b, shist s2 -> fst (finish_uninstall env s2 h g i b) <> Panicked).
  { intros s5 b5 H5. unfold finish_uninstall. destruct b5; [cbn; congruence|].
    pose proof (call_no_panic s5 (OUninstall h g i) H5) as P5. destruct (call s5 _) as [r5 s6]. cbn [fst] in *. apply of_out_panic, P5. }
  destruct b; [|apply F; assumption].
  pose proof (usages_of_hist s2 h g H2) as H3. pose proof (usages_of_no_panic s2 h g H2) as P3.
  destruct (usages_of s2 h g) as [[st us] s3]. cbn [fst snd] in H3, P3. destruct st; try (cbn; congruence).
  pose proof (drop_soft_hist h g us s3 false H3) as H4. destruct (drop_soft s3 h g us false) as [uc s4]. apply F, H4.
Qed.
Lemma core_install_no_panic env s h g i : shist s -> fst (fst (core_install env s h g i)) <> Panicked.
Proof.
  intros H. unfold core_install. pose proof (call_no_panic s (OInstall h g i) H) as P.
  destruct (call s (OInstall h g i)) as [r s1]. cbn [fst] in P. destruct r; try (cbn; congruence).
  destruct (signal_all env s1 evs []) as [cl s2]. destruct (call s2 (OUnregister cl)). cbn. congruence.
Qed.

(** ** Frames *)
Definition fh (f : frame) : N := match f with FEntry _ h _ _ => h | FUnload h _ => h end.
Definition fhs (stk : list frame) : list N := map fh stk.
Fixpoint ids (stk : list frame) : list N :=
  match stk with [] => [] | FEntry i _ _ _ :: t => i :: ids t | FUnload _ _ :: t => ids t end.
Fixpoint linked (stk : list frame) : Prop :=
  match stk with
  | [] => True
  | FEntry _ _ prev _ :: t => prev = hd_error (entries t) /\ linked t
  | FUnload _ _ :: t => linked t
  end.

Lemma busy_fhs stk h : busy stk h <-> In h (fhs stk).
Proof.
  unfold busy. induction stk as [|f t IH]; cbn [entries fhs map In].
  - split; [intros [[]|(k & [])]|intros []].
  - destruct f as [i h' p v|h' k']; cbn [fh In].
    + fold (fhs t). rewrite <- IH. split.
      * intros [[A|A]|(k & [A|A])]; try discriminate; auto. right. right. exists k. exact A.
      * intros [A|[A|(k & A)]]; auto. right. exists k. right. exact A.
    + fold (fhs t). rewrite <- IH. split.
      * intros [A|(k & [A|A])]; [auto|injection A as -> ->; auto|]. right. right. exists k. exact A.
      * intros [A|[A|(k & A)]]; auto. { right. exists k'. left. congruence. } right. exists k. right. exact A.
Qed.

Definition frame_ok (s : ist) (f : frame) : Prop :=
  exists im, om_get (i_imgs s) (fh f) = Some im /\ im_started im = true /\
    match f with FEntry _ _ _ _ => im_exit im = None | FUnload _ _ => True end.

Record inv (s : ist) (stk : list frame) : Prop := MkInv {
  v_hist : shist (i_db s);
  v_sort : om_sorted (i_imgs s);
  v_ctx : i_ctx s = ids stk;
  v_next : Forall (fun i => i < i_next s) (ids stk);
  v_ids : NoDup (ids stk);
  v_cur : i_cur s = hd_error (entries stk);
  v_link : linked stk;
  v_hs : NoDup (fhs stk);
  v_frames : Forall (frame_ok s) stk;
  v_fresh : forall h im, om_get (i_imgs s) h = Some im -> im_started im = false -> im_exit im = None }.

(** The parts of the state that an action of the database does not touch. *)
Definition rest_eq (s s' : ist) : Prop :=
  i_imgs s' = i_imgs s /\ i_cur s' = i_cur s /\ i_ctx s' = i_ctx s /\ i_dbg s' = i_dbg s /\ i_rt s' = i_rt s /\
  i_next s' = i_next s.

Lemma db_call_rest s o r s' : db_call s o = (r, s') -> rest_eq s s' /\ i_db s' = snd (call (i_db s) o) /\ r = fst (call (i_db s) o).
Proof.
  unfold db_call. destruct (call (i_db s) o) as [r0 d]. intros E. apply pair_equal_spec in E. destruct E as [<- <-].
  repeat apply conj; reflexivity.
Qed.

(** ** Removing an image *)
Definition removed (s s' : ist) (h : N) (im : image) : Prop :=
  i_imgs s' = om_del (i_imgs s) h /\ i_cur s' = i_cur s /\ i_ctx s' = i_ctx s /\ i_next s' = i_next s /\
  i_dbg s' = dbg_remove (i_dbg s) h /\
  i_rt s' = (if im_kind im =? RUNTIME_DRIVER then rt_remove (i_rt s) h else i_rt s).

(** The database after the removal. *)
Definition gone_db (fuel : nat) (env : penv) (d : pstate) (h : N) (im : image) : pstate :=
  let d1 := close_all d h in
  let d2 := snd (core_uninstall fuel env d1 h LOADED_IMAGE (im_info im)) in
  snd (core_uninstall fuel env d2 h LOADED_IMAGE_DEVICE_PATH (im_path im)).

Lemma gone_db_hist fuel env d h im : shist d -> shist (gone_db fuel env d h im).
Proof. intros H. unfold gone_db. apply core_uninstall_hist, core_uninstall_hist. apply (close_all_keeps h d H). Qed.

Lemma remove_image_ok fuel env s h im : shist (i_db s) -> om_get (i_imgs s) h = Some im ->
  (exists s', remove_image fuel env s h = (Some Stuck, s')) \/
  (exists s', remove_image fuel env s h = (None, s') /\ removed s s' h im /\ i_db s' = gone_db fuel env (i_db s) h im).
Proof.
  intros H G. unfold gone_db. cbv zeta. unfold remove_image. cbn [set_dbg set_db i_db i_imgs]. rewrite G.
  destruct (close_all_keeps h (i_db s) H) as (H1 & _).
  cbn [set_imgs i_db i_imgs set_db set_dbg].
  pose proof (core_uninstall_no_panic fuel env _ h LOADED_IMAGE (im_info im) H1) as P1.
  pose proof (core_uninstall_hist fuel env _ h LOADED_IMAGE (im_info im) H1) as H2.
  destruct (core_uninstall fuel env (close_all (i_db s) h) h LOADED_IMAGE (im_info im)) as [r1 d1]. cbn [fst snd] in P1, H2 |- *.
  pose proof (core_uninstall_no_panic fuel env _ h LOADED_IMAGE_DEVICE_PATH (im_path im) H2) as P2.
  destruct (core_uninstall fuel env d1 h LOADED_IMAGE_DEVICE_PATH (im_path im)) as [r2 d2]. cbn [fst snd] in P2 |- *.
  destruct r1; try congruence; try (left; eexists; reflexivity);
  destruct r2; try congruence; try (left; eexists; reflexivity); right;
  (destruct (im_kind im =? RUNTIME_DRIVER) eqn:K;
  (eexists; split; [reflexivity|]; split; [unfold removed; rewrite K; repeat apply conj; reflexivity|reflexivity])).
Qed.

(** The ways an unload can go. *)
Inductive unload_case (fuel : nat) (env : penv) (s : ist) (stk : list frame) (h : N) (force : bool) (k : unloader)
  : out -> ist -> list frame -> Prop :=
| UC_refused s' st : rest_eq s s' -> i_db s' = snd (call (i_db s) (OValidate h)) ->
    (st = 2 /\ (om_get (i_imgs s) h = None \/ ~ live (fst (i_db s)) h) \/
     st = 3 /\ live (fst (i_db s)) h /\ force = false /\
       exists im, om_get (i_imgs s) h = Some im /\ im_started im = true /\ im_unload im = false) ->
    unload_case fuel env s stk h force k (unload_result k st) s' stk
| UC_function s' im : rest_eq s s' -> i_db s' = snd (call (i_db s) (OValidate h)) ->
    om_get (i_imgs s) h = Some im -> im_started im = true -> im_unload im = true -> live (fst (i_db s)) h ->
    unload_case fuel env s stk h force k (Unloading h) s' (FUnload h k :: stk)
| UC_removed s' im : om_get (i_imgs s) h = Some im -> removed s s' h im -> live (fst (i_db s)) h ->
    (im_started im = false \/ (im_unload im = false /\ force = true)) ->
    i_db s' = gone_db fuel env (snd (call (i_db s) (OValidate h))) h im ->
    unload_case fuel env s stk h force k (unload_result k 0) s' stk
| UC_stuck s' : om_get (i_imgs s) h <> None -> unload_case fuel env s stk h force k Stuck s' stk.

Lemma validate_call s h : shist s ->
  (live (fst s) h -> fst (call s (OValidate h)) = OutUnit) /\
  (~ live (fst s) h -> fst (call s (OValidate h)) = OutErr InvalidParameter).
Proof.
  intros H. unfold call. destruct (protocol_handle_valid _ _ h H) as [A B].
  split; intros L; [apply A in L; rewrite L|apply B in L; rewrite L]; reflexivity.
Qed.
Lemma live_dec s h : shist s -> live (fst s) h \/ ~ live (fst s) h.
Proof.
  intros H. pose proof (hist_live _ _ h H) as L. destruct (om_get (p_handles (snd s)) h).
  - left. apply L. discriminate.
  - right. intros X. apply L in X. congruence.
Qed.

Lemma rest_removed s s1 s' h im : rest_eq s s1 -> removed s1 s' h im -> removed s s' h im.
Proof.
  intros (R1 & R2 & R3 & R4 & R5 & R6) (M1 & M2 & M3 & M4 & M5 & M6). unfold removed.
  rewrite <- R1, <- R2, <- R3, <- R4, <- R5, <- R6. repeat apply conj; assumption.
Qed.

Lemma do_unload_case fuel env s stk h force k o s' stk' : shist (i_db s) ->
  do_unload fuel env s stk h force k = (o, s', stk') -> unload_case fuel env s stk h force k o s' stk'.
Proof.
  intros H E. unfold do_unload in E. destruct (db_call s (OValidate h)) as [v s1] eqn:V.
  apply db_call_rest in V. destruct V as (R & Ed & Ev). pose proof R as (R1 & _). rewrite R1 in E.
  destruct (validate_call (i_db s) h H) as [Va Vb]. destruct (live_dec (i_db s) h H) as [L|L].
  - rewrite (Va L) in Ev. subst v. destruct (om_get (i_imgs s) h) as [im|] eqn:G.
    + destruct (im_started im) eqn:St; cbn [andb] in E.
      * destruct (im_unload im) eqn:U; [|destruct (negb force) eqn:F].
        -- eq3 E.
           eapply UC_function; eauto.
        -- eq3 E.
           apply UC_refused; [exact R|exact Ed|]. right. split; [reflexivity|]. split; [exact L|].
           split; [destruct force; [discriminate|reflexivity]|]. exists im. auto.
        -- unfold finish_unload in E. destruct (remove_image_ok fuel env s1 h im) as [(s2 & Er)|(s2 & Er & Rm & Edb)].
           { rewrite Ed. apply call_hist, H. }
           { rewrite R1. exact G. }
           ++ rewrite Er in E. eq3 E.
              apply UC_stuck; congruence.
           ++ rewrite Er in E. eq3 E.
              eapply UC_removed; eauto using rest_removed.
              ** right. split; [exact U|]. destruct force; [reflexivity|discriminate].
              ** rewrite Edb, Ed. reflexivity.
      * unfold finish_unload in E. destruct (remove_image_ok fuel env s1 h im) as [(s2 & Er)|(s2 & Er & Rm & Edb)].
        { rewrite Ed. apply call_hist, H. }
        { rewrite R1. exact G. }
        -- rewrite Er in E. eq3 E.
           apply UC_stuck; congruence.
        -- rewrite Er in E. eq3 E.
           eapply UC_removed; eauto using rest_removed. rewrite Edb, Ed. reflexivity.
    + eq3 E.
      apply UC_refused; auto.
  - rewrite (Vb L) in Ev. subst v. eq3 E.
    apply UC_refused; auto.
Qed.

(** ** Preservation *)
Lemma frame_ok_get s s' f : om_get (i_imgs s') (fh f) = om_get (i_imgs s) (fh f) -> frame_ok s f -> frame_ok s' f.
Proof. unfold frame_ok. intros ->. auto. Qed.

Lemma inv_rest s s' stk : inv s stk -> rest_eq s s' -> shist (i_db s') -> inv s' stk.
Proof.
  intros [] (R1 & R2 & R3 & _ & _ & R6) H. constructor; rewrite ?R1, ?R2, ?R3, ?R6; auto.
  eapply Forall_impl; [|exact v_frames0]. intros f. apply frame_ok_get. rewrite R1. reflexivity.
Qed.

Lemma inv_removed s s' stk h im : inv s stk -> removed s s' h im -> shist (i_db s') -> ~ In h (fhs stk) -> inv s' stk.
Proof.
  intros [] (M1 & M2 & M3 & M4 & _) H Hn. constructor; rewrite ?M1, ?M2, ?M3, ?M4; auto.
  - apply om_sorted_del, v_sort0.
  - rewrite Forall_forall in *. intros f Hf. apply (frame_ok_get s); [|apply v_frames0, Hf]. rewrite M1, om_get_del by exact v_sort0.
    destruct (fh f =? h) eqn:E; [|reflexivity]. exfalso. apply Hn. apply N.eqb_eq in E. rewrite <- E. apply in_map, Hf.
  - intros h' im' G. rewrite om_get_del in G by exact v_sort0. destruct (h' =? h); [discriminate|]. eapply v_fresh0, G.
Qed.

Lemma inv_push_unload s stk h k im : inv s stk -> om_get (i_imgs s) h = Some im -> im_started im = true ->
  ~ In h (fhs stk) -> inv s (FUnload h k :: stk).
Proof.
  intros [] G St Hn. constructor; auto.
  - cbn [fhs map fh]. constructor; assumption.
  - constructor; [|assumption]. exists im. auto.
Qed.

Lemma unload_case_inv fuel env s stk h force k o s' stk' : inv s stk -> ~ In h (fhs stk) ->
  unload_case fuel env s stk h force k o s' stk' ->
  o <> Wild /\ o <> Crashed /\ (~ fatal o -> inv s' stk').
Proof.
  intros I Hn C. destruct C as [s' st R Ed X|s' im R Ed G St U L|s' im G Rm L X Ed|s'].
  - split; [destruct k; discriminate|]. split; [destruct k; discriminate|]. intros _.
    eapply inv_rest; eauto. rewrite Ed. apply call_hist, (v_hist _ _ I).
  - split; [discriminate|]. split; [discriminate|]. intros _.
    assert (I' : inv s' stk). { eapply inv_rest; eauto. rewrite Ed. apply call_hist, (v_hist _ _ I). }
    eapply inv_push_unload; eauto. destruct R as (-> & _). exact G.
  - split; [destruct k; discriminate|]. split; [destruct k; discriminate|]. intros _.
    eapply inv_removed; eauto. rewrite Ed. apply gone_db_hist, call_hist, (v_hist _ _ I).
  - split; [discriminate|]. split; [discriminate|]. intros F. exfalso. apply F. right. right. reflexivity.
Qed.

Lemma after_start_inv fuel env s stk h st o s' stk' : inv s stk -> ~ In h (fhs stk) ->
  after_start fuel env s stk h st = (o, s', stk') -> o <> Wild /\ o <> Crashed /\ (~ fatal o -> inv s' stk').
Proof.
  intros I Hn E. unfold after_start in E. destruct (negb (st =? 0) || _).
  - apply do_unload_case in E; [|apply (v_hist _ _ I)]. eapply unload_case_inv; eauto.
  - eq3 E.
    split; [discriminate|]. split; [discriminate|]. auto.
Qed.

Lemma entered_inv s stk h svc im : inv s stk -> om_get (i_imgs s) h = Some im -> im_started im = false ->
  inv (MkSt (i_db s) (om_set (i_imgs s) h (set_started im)) (Some h) (i_next s :: i_ctx s) (i_dbg s) (i_rt s) (i_next s + 1))
      (FEntry (i_next s) h (i_cur s) svc :: stk).
Proof.
  intros [] G St. pose proof (v_fresh0 _ _ G St) as Ex.
  assert (Hn : ~ In h (fhs stk)).
  { intros X. apply in_map_iff in X. destruct X as (f & Ef & Hf). rewrite Forall_forall in v_frames0.
    destruct (v_frames0 f Hf) as (im2 & G2 & St2 & _). rewrite Ef, G in G2. congruence. }
  constructor; cbn [i_db i_imgs i_ctx i_cur i_next ids entries hd_error linked fhs map fh]; auto.
  - apply om_sorted_set, v_sort0.
  - rewrite v_ctx0. reflexivity.
  - constructor; [lia|]. eapply Forall_impl; [|exact v_next0]. cbn. lia.
  - constructor; [|exact v_ids0]. intros X. rewrite Forall_forall in v_next0. specialize (v_next0 _ X). cbn in v_next0. lia.
  - constructor; assumption.
  - constructor.
    + exists (set_started im). cbn [fh i_imgs]. rewrite om_get_set, N.eqb_refl. auto.
    + rewrite Forall_forall in *. intros f Hf. apply (frame_ok_get s); [|apply v_frames0, Hf]. cbn [i_imgs]. rewrite om_get_set.
      destruct (fh f =? h) eqn:E; [|reflexivity]. exfalso. apply Hn. apply N.eqb_eq in E. rewrite <- E. apply in_map, Hf.
  - intros h' im' G'. rewrite om_get_set in G'. destruct (h' =? h); [|eapply v_fresh0, G']. injection G' as <-. discriminate.
Qed.

(** ** Starting *)
Lemma do_start_case fuel env s stk h svc mem o s' stk' : shist (i_db s) ->
  do_start fuel env s stk h svc mem = (o, s', stk') ->
  exists s1, rest_eq s s1 /\ i_db s1 = snd (call (i_db s) (OValidate h)) /\
  ((exists im, om_get (i_imgs s) h = Some im /\ im_started im = false /\ mem = None /\ live (fst (i_db s)) h /\
     o = Entered h /\ stk' = FEntry (i_next s1) h (i_cur s1) svc :: stk /\
     s' = MkSt (i_db s1) (om_set (i_imgs s1) h (set_started im)) (Some h) (i_next s1 :: i_ctx s1) (i_dbg s1) (i_rt s1) (i_next s1 + 1)) \/
   (exists e, (e = InvalidParameter /\ (~ live (fst (i_db s)) h \/ om_get (i_imgs s) h = None \/
                 exists im, om_get (i_imgs s) h = Some im /\ im_started im = true) \/
               live (fst (i_db s)) h /\ mem = Some e /\ exists im, om_get (i_imgs s) h = Some im /\ im_started im = false) /\
     (o, s', stk') = if svc then after_start fuel env s1 stk h (code e) else (Returned (code e) None, s1, stk))).
Proof.
  intros H E. unfold do_start in E. destruct (db_call s (OValidate h)) as [v s1] eqn:V.
  apply db_call_rest in V. destruct V as (R & Ed & Ev). pose proof R as (R1 & _). rewrite R1 in E.
  exists s1. split; [exact R|]. split; [exact Ed|].
  destruct (validate_call (i_db s) h H) as [Va Vb]. destruct (live_dec (i_db s) h H) as [L|L].
  - rewrite (Va L) in Ev. subst v. destruct (om_get (i_imgs s) h) as [im|] eqn:G.
    + destruct (im_started im) eqn:St.
      * right. exists InvalidParameter. split; [|symmetry; exact E]. left. split; [reflexivity|]. right. right. exists im. auto.
      * destruct mem as [e|].
        -- right. exists e. split; [|symmetry; exact E]. right. split; [exact L|]. split; [reflexivity|]. exists im. auto.
        -- left. exists im. rewrite R1 in *. eq3 E. auto 10.
    + right. exists InvalidParameter. split; [|symmetry; exact E]. left. auto.
  - rewrite (Vb L) in Ev. subst v. right. exists InvalidParameter. split; [|symmetry; exact E]. left. auto.
Qed.

Lemma do_start_inv fuel env s stk h svc mem o s' stk' : inv s stk -> (svc = true -> ~ In h (fhs stk)) ->
  do_start fuel env s stk h svc mem = (o, s', stk') -> o <> Wild /\ o <> Crashed /\ (~ fatal o -> inv s' stk').
Proof.
  intros I Hn E. apply do_start_case in E; [|apply (v_hist _ _ I)].
  destruct E as (s1 & R & Ed & [(im & G & St & _ & _ & -> & -> & ->)|(e & _ & E)]).
  - split; [discriminate|]. split; [discriminate|]. intros _.
    assert (I1 : inv s1 stk). { eapply inv_rest; eauto. rewrite Ed. apply call_hist, (v_hist _ _ I). }
    apply entered_inv; [exact I1| |exact St]. destruct R as (-> & _). exact G.
  - assert (I1 : inv s1 stk). { eapply inv_rest; eauto. rewrite Ed. apply call_hist, (v_hist _ _ I). }
    destruct svc.
    + symmetry in E. eapply after_start_inv; eauto.
    + symmetry in E. eq3 E. split; [discriminate|]. split; [discriminate|]. auto.
Qed.

(** ** Exiting *)
Definition is_unload (f : frame) : Prop := match f with FUnload _ _ => True | _ => False end.

Lemma top_entry stk h : hd_error (entries stk) = Some h -> linked stk ->
  exists above id prev svc below, stk = above ++ FEntry id h prev svc :: below /\ Forall is_unload above /\
    ids stk = id :: ids below /\ prev = hd_error (entries below) /\ linked below /\
    unwind stk id = Some (h, prev, svc, below).
Proof.
  induction stk as [|f t IH]; cbn [entries hd_error]; [discriminate|]. destruct f as [i h' p v|h' k]; cbn [hd_error linked ids unwind].
  - intros E [L1 L2]. injection E as ->. exists [], i, p, v, t. rewrite N.eqb_refl. cbn [app]. auto 10.
  - intros E L. destruct (IH E L) as (ab & id & prev & svc & below & A & B & C & D & F & G).
    exists (FUnload h' k :: ab), id, prev, svc, below. split; [rewrite A; reflexivity|].
    split; [constructor; [exact Logic.I|exact B]|]. auto.
Qed.

(** The state in which the starter of the running image [h] is resumed. *)
Definition exit_set (s : ist) (h : N) (data : N * N) : ist :=
  match om_get (i_imgs s) h with
  | Some im => if negb (fst data =? 0) && negb (snd data =? 0)
               then set_imgs s (om_set (i_imgs s) h (set_exit data im)) else s
  | None => s
  end.
Definition resumed (s : ist) (h : N) (data : N * N) (prev : option N) : ist :=
  set_cur (set_ctx (exit_set s h data) (tl (i_ctx s))) prev.

Lemma fhs_app a b : fhs (a ++ b) = fhs a ++ fhs b. Proof. apply map_app. Qed.
Lemma nodup_app_r {A} (a b : list A) : NoDup (a ++ b) -> NoDup b.
Proof. induction a as [|x t IH]; cbn [app]; [auto|]. intros H. inversion H. auto. Qed.

Lemma resumed_inv s stk h data above id prev svc below : inv s stk ->
  stk = above ++ FEntry id h prev svc :: below -> ids stk = id :: ids below ->
  prev = hd_error (entries below) -> linked below -> inv (resumed s h data prev) below /\ ~ In h (fhs below).
Proof.
  intros I E Ei Ep Lk. destruct I.
  rewrite E in v_hs0. rewrite fhs_app in v_hs0. apply nodup_app_r in v_hs0. cbn [fhs map fh] in v_hs0. fold (fhs below) in v_hs0.
  apply NoDup_cons_iff in v_hs0. destruct v_hs0 as [Hn Hnd]. split; [|exact Hn].
  rewrite E in v_frames0. apply Forall_app in v_frames0. destruct v_frames0 as [_ F]. apply Forall_cons_iff in F.
  destruct F as [(im & G & St & Ex) F]. cbn [fh] in G.
  assert (Gi : forall h', om_get (i_imgs (exit_set s h data)) h' =
    if h' =? h then Some (if negb (fst data =? 0) && negb (snd data =? 0) then set_exit data im else im)
    else om_get (i_imgs s) h').
  { intros h'. unfold exit_set. rewrite G. destruct (_ && _).
    - cbn [i_imgs set_imgs]. apply om_get_set.
    - destruct (h' =? h) eqn:X; [|reflexivity]. apply N.eqb_eq in X. subst h'. exact G. }
  assert (Es : i_db (exit_set s h data) = i_db s /\ i_ctx (exit_set s h data) = i_ctx s /\ i_next (exit_set s h data) = i_next s).
  { unfold exit_set. destruct (om_get (i_imgs s) h); [|auto]. destruct (_ && _); auto. }
  destruct Es as (E1 & E2 & E3).
  rewrite Ei in v_next0, v_ids0, v_ctx0. apply NoDup_cons_iff in v_ids0. destruct v_ids0 as [_ Vid].
  apply Forall_cons_iff in v_next0. destruct v_next0 as [_ Vn].
  constructor; unfold resumed; cbn [i_db i_imgs i_ctx i_cur i_next set_cur set_ctx].
  - rewrite E1. exact v_hist0.
  - unfold exit_set. rewrite G. destruct (_ && _); [|exact v_sort0]. apply om_sorted_set, v_sort0.
  - rewrite v_ctx0. reflexivity.
  - rewrite E3. exact Vn.
  - exact Vid.
  - exact Ep.
  - exact Lk.
  - exact Hnd.
  - rewrite Forall_forall in *. intros f Hf. apply (frame_ok_get s); [|apply F, Hf]. cbn [i_imgs]. rewrite Gi.
    destruct (fh f =? h) eqn:X; [|reflexivity]. exfalso. apply Hn. apply N.eqb_eq in X. rewrite <- X. apply in_map, Hf.
  - intros h' im' G'. rewrite Gi in G'. destruct (h' =? h); [|eapply v_fresh0, G']. injection G' as <-.
    intros Hs. exfalso. revert Hs. destruct (_ && _); cbn [set_exit im_started]; congruence.
Qed.

Lemma do_exit_running fuel env s stk h st data : inv s stk -> i_cur s = Some h ->
  exists above id prev svc below, stk = above ++ FEntry id h prev svc :: below /\ Forall is_unload above /\
    ids stk = id :: ids below /\ prev = hd_error (entries below) /\ linked below /\
    do_exit fuel env s stk h st data =
      (let s1 := resumed s h data prev in
       if svc then after_start fuel env s1 below h st else (Returned st None, s1, below)).
Proof.
  intros I Hc. destruct (top_entry stk h) as (ab & id & prev & svc & below & A & B & C & D & F & G).
  { rewrite <- (v_cur _ _ I). exact Hc. } { apply (v_link _ _ I). }
  exists ab, id, prev, svc, below. split; [exact A|]. split; [exact B|]. split; [exact C|]. split; [exact D|]. split; [exact F|].
  pose proof (v_frames _ _ I) as Fr. rewrite A in Fr. apply Forall_app in Fr. destruct Fr as [_ Fr]. apply Forall_cons_iff in Fr.
  destruct Fr as [(im & Gi & St & _) _]. cbn [fh] in Gi.
  unfold do_exit. rewrite Gi, St. cbn [negb]. rewrite Hc, oeqb_refl. cbn [negb].
  set (s1 := if _ : bool then _ else s). assert (E1 : s1 = exit_set s h data) by (unfold s1, exit_set; rewrite Gi; reflexivity).
  assert (E2 : i_ctx s1 = i_ctx s). { unfold s1. destruct (_ && _); reflexivity. }
  rewrite E2. unfold resumed. rewrite (v_ctx _ _ I), C. cbn [tl]. rewrite G. unfold entry_done. rewrite E1. reflexivity.
Qed.

Lemma do_exit_inv fuel env s stk h st data o s' stk' : inv s stk ->
  do_exit fuel env s stk h st data = (o, s', stk') -> o <> Wild /\ o <> Crashed /\ (~ fatal o -> inv s' stk').
Proof.
  intros I E. destruct (oeqb (Some h) (i_cur s)) eqn:Q.
  - apply oeqb_eq in Q. symmetry in Q. destruct (do_exit_running fuel env s stk h st data I Q) as (ab & id & prev & svc & below & A & B & C & D & F & G).
    rewrite G in E. destruct (resumed_inv s stk h data ab id prev svc below I A C D F) as [I1 Hn]. cbv zeta in E. destruct svc.
    + eapply after_start_inv; eauto.
    + eq3 E. split; [discriminate|]. split; [discriminate|]. auto.
  - unfold do_exit in E. rewrite Q in E. destruct (om_get (i_imgs s) h) as [im|] eqn:G.
    + destruct (im_started im) eqn:St; cbn [negb] in E.
      * eq3 E. split; [discriminate|]. split; [discriminate|]. auto.
      * assert (Hn : ~ In h (fhs stk)).
        { intros X. apply in_map_iff in X. destruct X as (f & Ef & Hf). pose proof (v_frames _ _ I) as Fr. rewrite Forall_forall in Fr.
          destruct (Fr f Hf) as (im2 & G2 & St2 & _). rewrite Ef, G in G2. congruence. }
        destruct (do_unload fuel env s stk h true ByService) as [[o1 s1] stk1] eqn:U.
        apply do_unload_case in U; [|apply (v_hist _ _ I)]. destruct (unload_case_inv _ _ _ _ _ _ _ _ _ _ I Hn U) as (P1 & P2 & P3).
        destruct o1; eq3 E; try (split; [congruence|]; split; [congruence|]; exact P3).
        split; [discriminate|]. split; [discriminate|]. intros _. apply P3. intros [X|[X|X]]; discriminate.
    + eq3 E. split; [discriminate|]. split; [discriminate|]. auto.
Qed.

(** The entry point of the image on top returns: as if it had called Exit. *)
Lemma entry_returned_eq fuel env s below id h prev svc st : inv s (FEntry id h prev svc :: below) ->
  entry_returned fuel env s below id h prev svc st =
    (let s1 := resumed s h (0, 0) prev in
     if svc then after_start fuel env s1 below h st else (Returned st None, s1, below)).
Proof.
  intros I. assert (Hc : i_cur s = Some h) by (rewrite (v_cur _ _ I); reflexivity).
  destruct (do_exit_running fuel env s _ h st (0, 0) I Hc) as (ab & id2 & prev2 & svc2 & below2 & A & B & C & D & F & G).
  assert (X : FEntry id h prev svc :: below = FEntry id2 h prev2 svc2 :: below2).
  { destruct ab as [|f t]; [exact A|]. exfalso. cbn [app] in A. injection A as <- _. apply Forall_cons_iff in B. destruct B as [[] _]. }
  injection X as <- <- <- <-. unfold entry_returned. rewrite G. cbv zeta. clear G A B.
  assert (Hid : ~ In id (ids below)).
  { pose proof (v_ids _ _ I) as N. cbn [ids] in N. apply NoDup_cons_iff in N. apply N. }
  destruct svc.
  - destruct (after_start fuel env (resumed s h (0, 0) prev) below h st) as [[o s1] stk1] eqn:E.
    destruct o; try reflexivity.
    assert (Y : stk1 = below).
    { unfold after_start in E. destruct (negb (st =? 0) || _).
      - destruct (resumed_inv s _ h (0, 0) [] id prev true below I eq_refl C D F) as [I1 _].
        apply do_unload_case in E; [|apply (v_hist _ _ I1)]. inversion E; reflexivity.
      - eq3 E. reflexivity. }
    subst stk1. destruct below as [|[id' h' p' v'|h' k'] t]; try reflexivity.
    destruct (id' =? id) eqn:Q; [|reflexivity]. exfalso. apply Hid. cbn [ids]. left. apply N.eqb_eq in Q. exact Q.
  - destruct below as [|[id' h' p' v'|h' k'] t]; try reflexivity.
    destruct (id' =? id) eqn:Q; [|reflexivity]. exfalso. apply Hid. cbn [ids]. left. apply N.eqb_eq in Q. exact Q.
Qed.
