(** * LoadImage, StartImage, Exit and UnloadImage *)
From Coq Require Import Permutation.
From Verif Require Import Base.Prelude Base.Omap Protocol.Model Protocol.Spec Protocol.Proofs Protocol.Usage
  Protocol.Services Protocol.SvcProofs Protocol.Props Image.Model Image.Spec Image.Close Image.Proofs Image.Load Image.Effect.
Local Open Scope N_scope.

Lemma polite_is_run fuel env d0 info mem tr s stk : polite_runs fuel env d0 info mem tr s stk -> runs fuel env d0 info mem tr s stk.
Proof. induction 1; [constructor; assumption|]. eapply runs_step; eauto. Qed.

(** ** An entry point runs at most once *)

(** Whatever calls are made, in whatever order and nesting: between two loads that give an image its handle, its
    entry point is called at most once. *)
Theorem image_entry_point_runs_at_most_once fuel env d0 info mem tr s stk h :
  runs fuel env d0 info mem tr s stk -> (entered tr h <= 1)%nat.
Proof. intros R. apply (w_once _ _ (runs_weak _ _ _ _ _ _ _ _ R)). Qed.

(** ** Starting *)

(** StartImage (and the dispatcher's start) of a loaded image that was not started runs its entry point, on top
    of the code that called; of the image, only that it is started changes. *)
Theorem start_image_enters fuel env d0 info mem tr s stk h im (svc : bool) :
  runs fuel env d0 info mem tr s stk ->
  om_get (i_imgs s) h = Some im -> im_started im = false -> live (fst (i_db s)) h ->
  exists s' id prev, istep fuel env s stk (if svc then AStart h None else ADispatch h None) =
    (Entered h, s', FEntry id h prev svc :: stk) /\
    om_get (i_imgs s') h = Some (MkImage true (im_unload im) (im_kind im) (im_exit im) (im_info im) (im_path im) (im_hii im) (im_mem im)) /\
    (forall h', h' <> h -> om_get (i_imgs s') h' = om_get (i_imgs s) h').
Proof.
  intros R G St L. pose proof (w_hist _ _ (runs_weak _ _ _ _ _ _ _ _ R)) as H.
  assert (E : istep fuel env s stk (if svc then AStart h None else ADispatch h None) = do_start fuel env s stk h svc None)
    by (destruct svc; reflexivity).
  rewrite E. destruct (do_start fuel env s stk h svc None) as [[o s'] stk'] eqn:X. apply do_start_case in X; [|exact H].
  destruct X as (s1 & Re & Ed & [(im2 & G2 & St2 & _ & _ & -> & -> & ->)|(e & [(-> & [C|[C|(im2 & G2 & St2)]])|(_ & C & _)] & _)]);
    try congruence; try contradiction.
  eexists _, _, _. split; [reflexivity|]. split.
  { cbn [i_imgs]. rewrite om_get_set, N.eqb_refl. assert (im2 = im) by congruence. subst im2. reflexivity. }
  intros h' Hn. cbn [i_imgs]. rewrite om_get_set. destruct Re as (R1 & _). rewrite R1.
    destruct (N.eqb_spec h' h); [contradiction|reflexivity].
Qed.

Lemma same_images_trans a b c : same_images a b -> same_images b c -> same_images a c.
Proof.
  intros (a1 & a2 & a3 & a4 & a5 & a6 & a7) (b1 & b2 & b3 & b4 & b5 & b6 & b7).
  unfold same_images. rewrite b1, b2, b3, b4, b5. do 5 (split; [assumption|]). split.
  - intros h' g'. rewrite b6. apply a6.
  - intros h' g' x y z. rewrite b7. apply a7.
Qed.
Lemma validate_same s h s' : shist (i_db s) -> rest_eq s s' -> i_db s' = snd (call (i_db s) (OValidate h)) -> same_images s s'.
Proof.
  intros H (R1 & R2 & R3 & R4 & R5 & _) Ed. destruct (call_same (i_db s) (OValidate h) H Logic.I) as (_ & K & _).
  unfold same_images. rewrite R1, R2, R3, R4, R5, Ed. do 5 (split; [reflexivity|]). split; [exact K|].
  intros h' g' a c x. apply (call_opens (i_db s) (OValidate h) h' g' H Logic.I).
Qed.

(** A handle that names no loaded image is refused with EFI_INVALID_PARAMETER, and nothing changes. *)
Theorem start_image_unknown fuel env d0 info mem tr s stk h m :
  runs fuel env d0 info mem tr s stk -> ~ loaded s h ->
  exists s', istep fuel env s stk (AStart h m) = (Returned 2 None, s', stk) /\ same_images s s'.
Proof.
  intros R G. pose proof (w_hist _ _ (runs_weak _ _ _ _ _ _ _ _ R)) as H. unfold loaded in G.
  destruct (om_get (i_imgs s) h) as [im|] eqn:G1; [exfalso; apply G; discriminate|]. clear G.
  cbn [istep]. destruct (do_start fuel env s stk h true m) as [[o s'] stk'] eqn:X. apply do_start_case in X; [|exact H].
  destruct X as (s1 & Re & Ed & [(im2 & G2 & _)|(e & [(-> & C)|(_ & _ & im2 & G2 & _)] & X)]); try congruence.
  pose proof (validate_same s h s1 H Re Ed) as S1. destruct Re as (R1 & _).
  unfold after_start in X. rewrite R1, G1 in X. cbn [code N.eqb negb orb] in X. symmetry in X.
  assert (H1 : shist (i_db s1)) by (rewrite Ed; apply call_hist, H).
  apply do_unload_case in X; [|exact H1]. rewrite <- R1 in G1.
  destruct X as [s' st Re' Ed' X|s' im Re' Ed' G St U L|s' im G Rm L X Ed'|s' G]; try congruence.
  exists s'. split; [reflexivity|]. exact (same_images_trans _ _ _ S1 (validate_same s1 h s' H1 Re' Ed')).
Qed.

(** ** Ending *)

Lemma after_start_ends fuel env s below h st o s' stk' im : shist (i_db s) -> om_sorted (i_imgs s) ->
  om_get (i_imgs s) h = Some im -> im_started im = true -> live (fst (i_db s)) h ->
  after_start fuel env s below h st = (o, s', stk') -> o <> Stuck ->
  start_ends im h st (im_exit im) below o s' stk' /\ (forall h', h' <> h -> om_get (i_imgs s') h' = om_get (i_imgs s) h').
Proof.
  intros H So G St L E Ns. unfold after_start in E. rewrite G in E. unfold start_ends.
  destruct (negb (st =? 0) || (im_kind im =? APPLICATION)) eqn:B.
  - assert (D : st <> 0 \/ im_kind im = APPLICATION).
    { apply orb_true_iff in B. destruct B as [B|B]; [left|right]; [|apply N.eqb_eq, B]. destruct (N.eqb_spec st 0); [discriminate|assumption]. }
    apply do_unload_case in E; [|exact H].
    destruct E as [s' st' Re Ed [(-> & [X|X])|(_ & _ & X & _)]|s' im2 Re Ed G2 St2 U L2|s' im2 G2 Rm L2 X Ed|s']; try congruence; try contradiction.
    + assert (im2 = im) by congruence. subst im2. destruct Re as (R1 & _). split.
      * right. right. repeat apply conj; auto. unfold loaded. rewrite R1, G. discriminate.
      * intros h' _. rewrite R1. reflexivity.
    + assert (im2 = im) by congruence. subst im2. destruct Rm as (R1 & _). destruct X as [X|[X _]]; [congruence|]. split.
      * right. left. repeat apply conj; auto. intros N. apply N. rewrite R1, om_get_del by exact So. rewrite N.eqb_refl. reflexivity.
      * intros h' Hn. rewrite R1, om_get_del by exact So. destruct (N.eqb_spec h' h); [contradiction|reflexivity].
  - apply orb_false_iff in B. destruct B as [B1 B2]. eq3 E. split; [|auto]. left.
    destruct (N.eqb_spec st 0) as [->|]; [|discriminate]. repeat apply conj; auto. { apply N.eqb_neq, B2. } unfold loaded. rewrite G. discriminate.
Qed.

Lemma is_unload_entries above : Forall is_unload above -> entries above = [].
Proof. induction 1 as [|f t Hf Ht IH]; [reflexivity|]. destruct f; [destruct Hf|exact IH]. Qed.
Lemma entries_in_fhs stk h : In h (entries stk) -> In h (fhs stk).
Proof. intros H. apply busy_fhs. left. exact H. Qed.

Lemma resumed_ends fuel env s stk h st data above id prev (svc : bool) below im o s' stk' : inv s stk ->
  stk = above ++ FEntry id h prev svc :: below -> ids stk = id :: ids below ->
  prev = hd_error (entries below) -> linked below ->
  om_get (i_imgs s) h = Some im -> live (fst (i_db s)) h ->
  (let s1 := resumed s h data prev in if svc then after_start fuel env s1 below h st else (Returned st None, s1, below)) = (o, s', stk') ->
  o <> Stuck ->
  (if svc then start_ends im h st (exit_data data) below o s' stk'
   else o = Returned st None /\ stk' = below /\ loaded s' h) /\
  ~ In h (entries below) /\ forall h', h' <> h -> om_get (i_imgs s') h' = om_get (i_imgs s) h'.
Proof.
  intros I A C D F G L E Ns. destruct (resumed_inv s stk h data above id prev svc below I A C D F) as [I1 Hn].
  pose proof (v_frames _ _ I) as Fr. rewrite A in Fr. apply Forall_app in Fr. destruct Fr as [_ Fr]. apply Forall_cons_iff in Fr.
  destruct Fr as [(im2 & G2 & St & Ex) _]. cbn [fh] in G2. assert (im2 = im) by congruence. subst im2.
  set (im1 := if negb (fst data =? 0) && negb (snd data =? 0) then set_exit data im else im).
  assert (Gi : forall h', om_get (i_imgs (resumed s h data prev)) h' = if h' =? h then Some im1 else om_get (i_imgs s) h').
  { intros h'. unfold resumed, exit_set, im1. cbn [i_imgs set_cur set_ctx]. rewrite G. destruct (_ && _).
    - cbn [i_imgs set_imgs]. apply om_get_set.
    - destruct (N.eqb_spec h' h) as [X|X]; [|reflexivity]. rewrite X. exact G. }
  assert (Ei : im_exit im1 = exit_data data /\ im_started im1 = true /\ im_kind im1 = im_kind im /\ im_unload im1 = im_unload im).
  { unfold im1, exit_data. destruct (_ && _); cbn [set_exit im_exit im_started im_kind im_unload]; auto. }
  destruct Ei as (Ei & Es & Ek & Eu).
  assert (Edb : i_db (resumed s h data prev) = i_db s). { unfold resumed, exit_set. rewrite G. destruct (_ && _); reflexivity. }
  assert (G1 : om_get (i_imgs (resumed s h data prev)) h = Some im1) by (rewrite Gi, N.eqb_refl; reflexivity).
  assert (Gn : forall h', h' <> h -> om_get (i_imgs (resumed s h data prev)) h' = om_get (i_imgs s) h').
  { intros h' X. rewrite Gi. destruct (N.eqb_spec h' h); [contradiction|reflexivity]. }
  split; [|split; [intros X; apply Hn, entries_in_fhs, X|]]; cbv zeta in E; destruct svc.
  - destruct (after_start_ends fuel env _ below h st o s' stk' im1 (v_hist _ _ I1) (v_sort _ _ I1) G1 Es) as [X _]; auto.
    { rewrite Edb. exact L. } rewrite Ei in X. unfold start_ends in *. rewrite Ek, Eu in X. exact X.
  - eq3 E. split; [reflexivity|]. split; [reflexivity|]. unfold loaded. rewrite G1. discriminate.
  - destruct (after_start_ends fuel env _ below h st o s' stk' im1 (v_hist _ _ I1) (v_sort _ _ I1) G1 Es) as [_ X]; auto.
    { rewrite Edb. exact L. } intros h' Hx. rewrite X, Gn by exact Hx. reflexivity.
  - eq3 E. exact Gn.
Qed.

(** The running image calls Exit (possibly from an unload function it made run): control goes back to the StartImage
    that started it, whatever runs above is dropped, and that StartImage ends with the status and the exit data
    given to Exit.  The dispatcher's own start just gets the status.  No other image changes. *)
Theorem exit_ends_start fuel env d0 info mem tr s stk h im st data o s' stk' :
  polite_runs fuel env d0 info mem tr s stk -> hd_error (entries stk) = Some h ->
  om_get (i_imgs s) h = Some im -> live (fst (i_db s)) h ->
  istep fuel env s stk (AExit h st data) = (o, s', stk') -> o <> Stuck ->
  exists above id prev svc below, stk = above ++ FEntry id h prev svc :: below /\ entries above = [] /\
    (if (svc : bool) then start_ends im h st (exit_data data) below o s' stk'
     else o = Returned st None /\ stk' = below /\ loaded s' h) /\
    ~ In h (entries below) /\ (forall h', h' <> h -> om_get (i_imgs s') h' = om_get (i_imgs s) h').
Proof.
  intros R Hd G L E Ns. pose proof (polite_inv _ _ _ _ _ _ _ _ R) as I. cbn [istep] in E.
  assert (Hc : i_cur s = Some h) by (rewrite (v_cur _ _ I); exact Hd).
  destruct (do_exit_running fuel env s stk h st data I Hc) as (ab & id & prev & svc & below & A & B & C & D & F & X).
  exists ab, id, prev, svc, below. split; [exact A|]. split; [apply is_unload_entries, B|]. rewrite X in E.
  eapply resumed_ends; eauto.
Qed.

(** The entry point returns: as if the image had called Exit without exit data. *)
Theorem entry_return_ends_start fuel env d0 info mem tr s id h prev svc below im st o s' stk' :
  polite_runs fuel env d0 info mem tr s (FEntry id h prev svc :: below) ->
  om_get (i_imgs s) h = Some im -> live (fst (i_db s)) h ->
  istep fuel env s (FEntry id h prev svc :: below) (AReturn st) = (o, s', stk') -> o <> Stuck ->
  (if (svc : bool) then start_ends im h st None below o s' stk'
   else o = Returned st None /\ stk' = below /\ loaded s' h) /\
  ~ In h (entries below) /\ (forall h', h' <> h -> om_get (i_imgs s') h' = om_get (i_imgs s) h').
Proof.
  intros R G L E Ns. pose proof (polite_inv _ _ _ _ _ _ _ _ R) as I. cbn [istep] in E. rewrite entry_returned_eq in E by exact I.
  pose proof (v_link _ _ I) as [Lk1 Lk2].
  change None with (exit_data (0, 0)). eapply (resumed_ends fuel env s _ h st (0, 0) [] id prev svc below); eauto.
Qed.

(** The unload function returns [r]: on success the image goes; the call that made it run (UnloadImage, or the end of
    StartImage) returns to its caller. *)
Theorem unload_function_return fuel env d0 info mem tr s h k below r o s' stk' :
  runs fuel env d0 info mem tr s (FUnload h k :: below) ->
  istep fuel env s (FUnload h k :: below) (AReturn r) = (o, s', stk') -> ~ fatal o ->
  stk' = below /\
  o = match k with ByService => Returned r None | ByStart st d => Returned st d end /\
  (forall h', h' <> h -> om_get (i_imgs s') h' = om_get (i_imgs s) h') /\
  (if r =? 0 then ~ loaded s' h else s' = s).
Proof.
  intros R E F. destruct (runs_weak _ _ _ _ _ _ _ _ R) as [H So _ _ _ _]. cbn [istep] in E. unfold unload_returned in E.
  destruct (N.eqb_spec r 0) as [->|Hr].
  - unfold finish_unload in E. destruct (om_get (i_imgs s) h) as [im|] eqn:G.
    + destruct (remove_image_ok fuel env s h im H G) as [(s2 & Er)|(s2 & Er & (R1 & _) & _)]; rewrite Er in E; eq3 E.
      * exfalso. apply F. right. right. reflexivity.
      * split; [reflexivity|]. split; [destruct k; reflexivity|]. split.
        -- intros h' Hn. rewrite R1, om_get_del by exact So. destruct (N.eqb_spec h' h); [contradiction|reflexivity].
        -- intros N. apply N. rewrite R1, om_get_del by exact So. rewrite N.eqb_refl. reflexivity.
    + exfalso. assert (Er : fst (remove_image fuel env s h) = Some Crashed).
      { unfold remove_image. cbn [set_dbg set_db i_imgs]. rewrite G. reflexivity. }
      destruct (remove_image fuel env s h) as [q s2]. cbn [fst] in Er. subst q. eq3 E. apply F. left. reflexivity.
  - eq3 E. split; [reflexivity|]. split; [destruct k; reflexivity|]. auto.
Qed.

(** Exit naming an image that was started and is not the running one is refused and changes nothing. *)
Theorem exit_of_another_image fuel env d0 info mem tr s stk h im st data :
  polite_runs fuel env d0 info mem tr s stk -> om_get (i_imgs s) h = Some im -> im_started im = true ->
  hd_error (entries stk) <> Some h ->
  istep fuel env s stk (AExit h st data) = (Returned 2 None, s, stk).
Proof.
  intros R G St Hd. pose proof (polite_inv _ _ _ _ _ _ _ _ R) as I. cbn [istep]. unfold do_exit. rewrite G, St. cbn [negb].
  rewrite (v_cur _ _ I). destruct (oeqb (Some h) (hd_error (entries stk))) eqn:Q; [|reflexivity].
  apply oeqb_eq in Q. congruence.
Qed.

(** Exit naming a handle that is no loaded image is refused and changes nothing. *)
Theorem exit_of_unknown_image fuel env s stk h st data :
  ~ loaded s h -> istep fuel env s stk (AExit h st data) = (Returned 2 None, s, stk).
Proof.
  intros L. cbn [istep]. unfold do_exit. destruct (om_get (i_imgs s) h) eqn:G; [|reflexivity].
  elim L. unfold loaded. congruence.
Qed.

(** Exit naming an image that was loaded and never started unloads it. *)
Theorem exit_of_unstarted_image fuel env d0 info mem tr s stk h im st data o s' stk' :
  runs fuel env d0 info mem tr s stk -> om_get (i_imgs s) h = Some im -> im_started im = false -> live (fst (i_db s)) h ->
  istep fuel env s stk (AExit h st data) = (o, s', stk') -> ~ fatal o ->
  o = Returned 0 None /\ stk' = stk /\ ~ loaded s' h /\ (forall h', h' <> h -> om_get (i_imgs s') h' = om_get (i_imgs s) h').
Proof.
  intros R G St L E F. destruct (runs_weak _ _ _ _ _ _ _ _ R) as [H So _ _ _ _]. cbn [istep] in E. unfold do_exit in E. rewrite G, St in E.
  cbn [negb] in E. destruct (do_unload fuel env s stk h true ByService) as [[o1 s1] stk1] eqn:U. apply do_unload_case in U; [|exact H].
  destruct U as [s1 st' Re Ed [(-> & [X|X])|(_ & _ & X & _)]|s1 im2 Re Ed G2 St2 U L2|s1 im2 G2 Rm L2 X Ed|s1]; try congruence; try contradiction.
  - cbn [unload_result N.eqb] in E. eq3 E. destruct Rm as (R1 & _). split; [reflexivity|]. split; [reflexivity|]. split.
    + intros N. apply N. rewrite R1, om_get_del by exact So. rewrite N.eqb_refl. reflexivity.
    + intros h' Hn. rewrite R1, om_get_del by exact So. destruct (N.eqb_spec h' h); [contradiction|reflexivity].
  - eq3 E. exfalso. apply F. right. right. reflexivity.
Qed.

(** ** Unloading *)

(** UnloadImage is refused exactly when the handle names no loaded image (EFI_INVALID_PARAMETER) or a started image
    without an unload function (EFI_UNSUPPORTED), and then changes nothing. *)
Theorem unload_image_contract fuel env d0 info mem tr s stk h o s' stk' :
  runs fuel env d0 info mem tr s stk -> istep fuel env s stk (AUnload h) = (o, s', stk') -> ~ fatal o ->
  (forall im, om_get (i_imgs s) h = Some im -> live (fst (i_db s)) h ->
     (im_started im = false -> o = Returned 0 None /\ stk' = stk /\ ~ loaded s' h) /\
     (im_started im = true -> im_unload im = true -> o = Unloading h /\ stk' = FUnload h ByService :: stk /\ same_images s s') /\
     (im_started im = true -> im_unload im = false -> o = Returned 3 None /\ stk' = stk /\ same_images s s')) /\
  ((~ loaded s h \/ ~ live (fst (i_db s)) h) -> o = Returned 2 None /\ stk' = stk /\ same_images s s') /\
  (forall h', h' <> h -> om_get (i_imgs s') h' = om_get (i_imgs s) h').
Proof.
  intros R E F. destruct (runs_weak _ _ _ _ _ _ _ _ R) as [H So _ _ _ _]. cbn [istep] in E. apply do_unload_case in E; [|exact H].
  destruct E as [s' st Re Ed X|s' im2 Re Ed G2 St2 U L2|s' im2 G2 Rm L2 X Ed|s' _].
  - pose proof (validate_same s h s' H Re Ed) as Sm. repeat apply conj.
    + intros im G L. destruct X as [(-> & [X|X])|(-> & _ & _ & im2 & G2 & St & U)]; try congruence; try contradiction.
      assert (im2 = im) by congruence. subst im2. repeat apply conj; intros; try congruence. auto.
    + intros D. destruct X as [(-> & X)|(-> & L & _ & im2 & G2 & St & U)]; [auto|]. exfalso. destruct D as [D|D]; [|contradiction].
      apply D. unfold loaded. congruence.
    + intros h' _. destruct Re as (-> & _). reflexivity.
  - pose proof (validate_same s h s' H Re Ed) as Sm. repeat apply conj.
    + intros im G L. assert (im2 = im) by congruence. subst im2. repeat apply conj; intros; try congruence. auto.
    + intros [D|D]; [|contradiction]. exfalso. apply D. unfold loaded. congruence.
    + intros h' _. destruct Re as (-> & _). reflexivity.
  - destruct Rm as (R1 & _). assert (Nl : ~ loaded s' h).
    { intros N. apply N. rewrite R1, om_get_del by exact So. rewrite N.eqb_refl. reflexivity. }
    destruct X as [X|[_ X]]; [|discriminate]. repeat apply conj.
    + intros im G L. assert (im2 = im) by congruence. subst im2. repeat apply conj; intros; try congruence. auto.
    + intros [D|D]; [|contradiction]. exfalso. apply D. unfold loaded. congruence.
    + intros h' Hn. rewrite R1, om_get_del by exact So. destruct (N.eqb_spec h' h); [contradiction|reflexivity].
  - exfalso. apply F. right. right. reflexivity.
Qed.

Lemma gone_db_clean fuel env d h im : quiet env -> shist d -> live (fst d) h ->
  (forall h' g c x, held (fst (gone_db fuel env d h im)) h' g h c x -> ~ olive (fst d) c) /\
  (forall h' g a c x, held (fst (gone_db fuel env d h im)) h' g a c x -> held (fst d) h' g a c x) /\
  (forall h' g, (h' = h /\ (g = LOADED_IMAGE \/ g = LOADED_IMAGE_DEVICE_PATH)) \/
     installed (fst (gone_db fuel env d h im)) h' g = installed (fst d) h' g) /\
  (forall g, installed (fst (gone_db fuel env d h im)) h g = installed (fst d) h g \/ installed (fst (gone_db fuel env d h im)) h g = None).
Proof.
  intros Q H L. destruct (close_all_ok h d H L) as (H1 & K1 & S1 & C1). unfold gone_db. cbv zeta. set (d1 := close_all d h) in *.
  pose proof (core_uninstall_shrinks fuel env d1 h LOADED_IMAGE (im_info im) Q H1) as S2.
  pose proof (core_uninstall_hist fuel env d1 h LOADED_IMAGE (im_info im) H1) as H2.
  pose proof (core_uninstall_quiet fuel env d1 h LOADED_IMAGE (im_info im) Q H1) as U2.
  destruct (core_uninstall fuel env d1 h LOADED_IMAGE (im_info im)) as [r2 d2]. cbn [snd] in *.
  pose proof (core_uninstall_shrinks fuel env d2 h LOADED_IMAGE_DEVICE_PATH (im_path im) Q H2) as S3.
  pose proof (core_uninstall_quiet fuel env d2 h LOADED_IMAGE_DEVICE_PATH (im_path im) Q H2) as U3.
  destruct (core_uninstall fuel env d2 h LOADED_IMAGE_DEVICE_PATH (im_path im)) as [r3 d3]. cbn [snd] in *.
  pose proof (shrinks_trans _ _ _ S2 S3) as S13.
  assert (V2 : (forall h' g', installed (fst d2) h' g' = if (h' =? h) && (g' =? LOADED_IMAGE) then None else installed (fst d1) h' g') \/ keeps d1 d2).
  { destruct r2; [left; apply U2|right; exact U2..]. }
  assert (V3 : (forall h' g', installed (fst d3) h' g' = if (h' =? h) && (g' =? LOADED_IMAGE_DEVICE_PATH) then None else installed (fst d2) h' g') \/ keeps d2 d3).
  { destruct r3; [left; apply U3|right; exact U3..]. }
  split; [|split; [|split]].
  - intros h' g c x Hh. apply (C1 h' g c x). eapply shrinks_held; eauto.
  - intros h' g a c x Hh. eapply shrinks_held; [exact S1|]. eapply shrinks_held; eauto.
  - intros h' g. destruct (N.eqb_spec h' h) as [Eh|Eh].
    + destruct (N.eqb_spec g LOADED_IMAGE) as [Eg|Eg]; [left; auto|]. destruct (N.eqb_spec g LOADED_IMAGE_DEVICE_PATH) as [Eg2|Eg2]; [left; auto|].
      right. transitivity (installed (fst d2) h' g).
      * destruct V3 as [V3|V3]; [|apply V3]. rewrite V3. apply N.eqb_neq in Eg2. rewrite Eg2, andb_false_r. reflexivity.
      * transitivity (installed (fst d1) h' g); [|apply K1].
        destruct V2 as [V2|V2]; [|apply V2]. rewrite V2. apply N.eqb_neq in Eg. rewrite Eg, andb_false_r. reflexivity.
    + right. apply N.eqb_neq in Eh. transitivity (installed (fst d2) h' g).
      * destruct V3 as [V3|V3]; [|apply V3]. rewrite V3, Eh. reflexivity.
      * transitivity (installed (fst d1) h' g); [|apply K1]. destruct V2 as [V2|V2]; [|apply V2]. rewrite V2, Eh. reflexivity.
  - intros g. assert (X : installed (fst d3) h g = None \/ installed (fst d3) h g = installed (fst d2) h g).
    { destruct V3 as [V3|V3]; [|right; apply V3]. rewrite V3. destruct (_ && _); auto. }
    assert (Y : installed (fst d2) h g = None \/ installed (fst d2) h g = installed (fst d1) h g).
    { destruct V2 as [V2|V2]; [|right; apply V2]. rewrite V2. destruct (_ && _); auto. }
    destruct X as [X|X]; [auto|]. rewrite X. destruct Y as [Y|Y]; [auto|]. left. rewrite Y. apply K1.
Qed.

(** Whatever call removes an image, in a polite run: the image's record is the one that goes. *)
Lemma step_removes fuel env s stk a o s' stk' h im : inv s stk -> polite stk a o ->
  istep fuel env s stk a = (o, s', stk') -> ~ fatal o -> om_get (i_imgs s) h = Some im -> ~ loaded s' h ->
  exists d im', shist d /\ keeps (i_db s) d /\ shrinks (i_db s) d /\ i_db s' = gone_db fuel env d h im' /\
    im_info im' = im_info im /\ im_path im' = im_path im /\
    i_dbg s' = dbg_remove (i_dbg s) h /\
    i_rt s' = (if im_kind im =? RUNTIME_DRIVER then rt_remove (i_rt s) h else i_rt s).
Proof.
  intros I P E F G Nl.
  assert (Go : forall s0 stk0 h0 force k s2 stk2 o2, shist (i_db s0) -> om_sorted (i_imgs s0) -> keeps (i_db s) (i_db s0) -> shrinks (i_db s) (i_db s0) ->
     i_dbg s0 = i_dbg s -> i_rt s0 = i_rt s ->
     (exists im1, om_get (i_imgs s0) h = Some im1 /\ im_info im1 = im_info im /\ im_path im1 = im_path im /\ im_kind im1 = im_kind im) ->
     ~ loaded s2 h -> ~ fatal o2 ->
     unload_case fuel env s0 stk0 h0 force k o2 s2 stk2 ->
     exists d im', shist d /\ keeps (i_db s) d /\ shrinks (i_db s) d /\ i_db s2 = gone_db fuel env d h im' /\
       im_info im' = im_info im /\ im_path im' = im_path im /\
       i_dbg s2 = dbg_remove (i_dbg s) h /\ i_rt s2 = (if im_kind im =? RUNTIME_DRIVER then rt_remove (i_rt s) h else i_rt s)).
  { intros s0 stk0 h0 force k s2 stk2 o2 H0 So0 K0 S0 D0 T0 (im1 & G0 & A1 & A2 & A3) N2 F2 C.
    destruct C as [s2 st Re Ed X|s2 im2 Re Ed G2 St2 U L2|s2 im2 G2 Rm L2 X Ed|s2 _].
    - exfalso. apply N2. unfold loaded. destruct Re as (R1 & _). congruence.
    - exfalso. apply N2. unfold loaded. destruct Re as (R1 & _). congruence.
    - destruct Rm as (R1 & _ & _ & _ & R5 & R6). assert (h0 = h).
      { destruct (N.eq_dec h h0); [auto|]. exfalso. apply N2. unfold loaded. rewrite R1, om_get_del by exact So0. apply N.eqb_neq in n. rewrite n. congruence. }
      subst h0. assert (im2 = im1) by congruence. subst im2.
      destruct (call_same (i_db s0) (OValidate h) H0 Logic.I) as (Hv & Kv & Sv).
      exists (snd (call (i_db s0) (OValidate h))), im1. split; [exact Hv|]. split; [exact (keeps_trans _ _ _ K0 Kv)|].
      split; [exact (shrinks_trans _ _ _ S0 Sv)|]. split; [exact Ed|]. split; [exact A1|]. split; [exact A2|].
      split; [rewrite R5, D0; reflexivity|rewrite R6, A3, T0; reflexivity].
    - exfalso. apply F2. right. right. reflexivity. }
  pose proof (v_hist _ _ I) as H. pose proof (v_sort _ _ I) as So.
  assert (Kr : keeps (i_db s) (i_db s)) by (intros ? ?; reflexivity).
  assert (Gim : exists im1, om_get (i_imgs s) h = Some im1 /\ im_info im1 = im_info im /\ im_path im1 = im_path im /\ im_kind im1 = im_kind im)
    by (exists im; auto).
  assert (Af : forall s0 stk0 h0 st s2 stk2 o2, shist (i_db s0) -> om_sorted (i_imgs s0) -> keeps (i_db s) (i_db s0) -> shrinks (i_db s) (i_db s0) ->
     i_dbg s0 = i_dbg s -> i_rt s0 = i_rt s ->
     (exists im1, om_get (i_imgs s0) h = Some im1 /\ im_info im1 = im_info im /\ im_path im1 = im_path im /\ im_kind im1 = im_kind im) ->
     ~ loaded s2 h -> ~ fatal o2 -> after_start fuel env s0 stk0 h0 st = (o2, s2, stk2) ->
     exists d im', shist d /\ keeps (i_db s) d /\ shrinks (i_db s) d /\ i_db s2 = gone_db fuel env d h im' /\
       im_info im' = im_info im /\ im_path im' = im_path im /\
       i_dbg s2 = dbg_remove (i_dbg s) h /\ i_rt s2 = (if im_kind im =? RUNTIME_DRIVER then rt_remove (i_rt s) h else i_rt s)).
  { intros s0 stk0 h0 st s2 stk2 o2 H0 So0 K0 S0 D0 T0 Gm N2 F2 X. unfold after_start in X. destruct (negb (st =? 0) || _).
    - apply do_unload_case in X; [|exact H0]. eapply Go; eauto.
    - eq3 X. exfalso. destruct Gm as (im1 & G1 & _). apply N2. unfold loaded. congruence. }
  assert (Rs : forall h0 data st prev (svc : bool) below, ((let s1 := resumed s h0 data prev in
      if svc then after_start fuel env s1 below h0 st else (Returned st None, s1, below)) = (o, s', stk')) ->
     exists d im', shist d /\ keeps (i_db s) d /\ shrinks (i_db s) d /\ i_db s' = gone_db fuel env d h im' /\
       im_info im' = im_info im /\ im_path im' = im_path im /\
       i_dbg s' = dbg_remove (i_dbg s) h /\ i_rt s' = (if im_kind im =? RUNTIME_DRIVER then rt_remove (i_rt s) h else i_rt s)).
  { intros h0 data st prev svc below X. cbv zeta in X.
    assert (A : i_db (resumed s h0 data prev) = i_db s /\ i_dbg (resumed s h0 data prev) = i_dbg s /\ i_rt (resumed s h0 data prev) = i_rt s /\
      om_sorted (i_imgs (resumed s h0 data prev)) /\
      exists im1, om_get (i_imgs (resumed s h0 data prev)) h = Some im1 /\ im_info im1 = im_info im /\ im_path im1 = im_path im /\ im_kind im1 = im_kind im).
    { unfold resumed, exit_set. destruct (om_get (i_imgs s) h0) as [im0|] eqn:G0; [|auto 10]. destruct (_ && _); [|auto 10].
      cbn [set_cur set_ctx set_imgs i_db i_dbg i_rt i_imgs]. do 3 (split; [reflexivity|]). split; [apply om_sorted_set, So|].
      rewrite om_get_set. destruct (N.eqb_spec h h0) as [Eh|_]; [|exact Gim]. subst h0. exists (set_exit data im0).
      assert (im0 = im) by congruence. subst im0. auto. }
    destruct A as (A1 & A2 & A3 & A4 & A5). destruct svc.
    - eapply (Af (resumed s h0 data prev)); eauto; rewrite A1; auto. apply shrinks_refl.
    - eq3 X. exfalso. apply Nl. unfold loaded. destruct A5 as (im1 & G1 & _). congruence. }
  destruct a as [l|h1 m|h1 m|h1|h1 st data|st|h1 b|q]; cbn [istep] in E; cbn [polite] in P.
  - exfalso. destruct (do_load env s l) as [o1 s1] eqn:L. eq3 E. apply do_load_case in L; [|exact H]. apply Nl. unfold loaded.
    destruct L as [s' h0 p sec fv copy Sm Ep Ef Ec Lp Ip Vd Ei Ed Er Q|s' o Sm Ei O1 O0 O2 O3 (l1 & Ed) (l2 & Er)]; rewrite Ei; [|congruence].
    rewrite om_get_set. destruct (h =? h0); congruence.
  - apply do_start_case in E; [|exact H].
    destruct E as (s1 & R & Ed & [(im1 & G1 & St & _ & _ & -> & -> & ->)|(e & _ & E)]); destruct R as (R1 & R2 & R3 & R4 & R5 & R6).
    + exfalso. apply Nl. unfold loaded. cbn [i_imgs]. rewrite om_get_set, R1. destruct (h =? h1); congruence.
    + symmetry in E. destruct (call_same (i_db s) (OValidate h1) H Logic.I) as (Hv & Kv & Sv). rewrite <- Ed in Hv, Kv, Sv.
      eapply (Af s1); eauto; rewrite R1; auto.
  - exfalso. apply do_start_case in E; [|exact H].
    destruct E as (s1 & R & Ed & [(im1 & G1 & St & _ & _ & -> & -> & ->)|(e & _ & E)]); destruct R as (R1 & R2 & R3 & R4 & R5 & R6); apply Nl; unfold loaded.
    + cbn [i_imgs]. rewrite om_get_set, R1. destruct (h =? h1); congruence.
    + symmetry in E. eq3 E. congruence.
  - apply do_unload_case in E; [|exact H]. eapply Go; eauto. apply shrinks_refl.
  - destruct (oeqb (Some h1) (i_cur s)) eqn:Q.
    + apply oeqb_eq in Q. symmetry in Q. destruct (do_exit_running fuel env s stk h1 st data I Q) as (ab & id & prev & svc & below & A & B & C & D & X & Y).
      rewrite Y in E. eapply Rs; eauto.
    + unfold do_exit in E. rewrite Q in E. destruct (om_get (i_imgs s) h1) as [im1|] eqn:G1.
      * destruct (im_started im1) eqn:St; cbn [negb] in E; [eq3 E; exfalso; apply Nl; unfold loaded; congruence|].
        destruct (do_unload fuel env s stk h1 true ByService) as [[o1 s1] stk1] eqn:U.
        apply do_unload_case in U; [|exact H]. assert (F1 : ~ fatal o1 /\ s1 = s').
        { destruct o1; eq3 E; split; auto; intros [X|[X|X]]; discriminate. }
        destruct F1 as [F1 ->]. eapply Go; [..|exact U]; eauto. apply shrinks_refl.
      * eq3 E. exfalso. apply Nl. unfold loaded. congruence.
  - destruct stk as [|[id h1 prev svc|h1 k] below].
    + eq3 E. exfalso. apply Nl. unfold loaded. congruence.
    + rewrite entry_returned_eq in E by exact I. eapply Rs; eauto.
    + unfold unload_returned in E. destruct (st =? 0); [|eq3 E; exfalso; apply Nl; unfold loaded; congruence].
      unfold finish_unload in E. pose proof (v_frames _ _ I) as Fr. apply Forall_cons_iff in Fr. destruct Fr as [(im1 & G1 & _) _]. cbn [fh] in G1.
      destruct (remove_image_ok fuel env s h1 im1 H G1) as [(s2 & Er)|(s2 & Er & (R1 & _ & _ & _ & R5 & R6) & Edb)]; rewrite Er in E; eq3 E.
      { exfalso. apply F. right. right. reflexivity. }
      assert (h1 = h).
      { destruct (N.eq_dec h h1); [auto|]. exfalso. apply Nl. unfold loaded. rewrite R1, om_get_del by exact So. apply N.eqb_neq in n. rewrite n. congruence. }
      subst h1. assert (im1 = im) by congruence. subst im1. exists (i_db s), im. split; [exact H|]. split; [exact Kr|].
      split; [apply shrinks_refl|]. auto 10.
  - exfalso. eq3 E. apply Nl. unfold loaded. cbn [set_imgs i_imgs]. rewrite om_get_upd. destruct (N.eqb_spec h h1) as [Eh|_]; [|congruence].
    subst h1. rewrite G. discriminate.
  - exfalso. destruct (db_call s q) as [r s1] eqn:V. apply db_call_rest in V. destruct V as ((R1 & _) & _). eq3 E. apply Nl. unfold loaded. congruence.
Qed.

(** What is left of an image that goes, whichever call removes it, when no driver or callback changes the database
    meanwhile: it holds no protocol open through a controller that exists; nobody holds more than before; no
    protocol changes except its own LoadedImage and LoadedImageDevicePath, which can only go; one entry of the
    debug image table, its own, is gone; and the runtime list no longer has it when it was a runtime driver. *)
Theorem unload_cleans_up fuel env d0 info mem tr s stk a o s' stk' h im : quiet env ->
  polite_runs fuel env d0 info mem tr s stk -> polite stk a o ->
  istep fuel env s stk a = (o, s', stk') -> ~ fatal o ->
  om_get (i_imgs s) h = Some im -> ~ loaded s' h -> live (fst (i_db s)) h ->
  (forall h' g c x, held (fst (i_db s')) h' g h c x -> ~ olive (fst (i_db s)) c) /\
  (forall h' g ag c x, held (fst (i_db s')) h' g ag c x -> held (fst (i_db s)) h' g ag c x) /\
  (forall h' g, (h' = h /\ (g = LOADED_IMAGE \/ g = LOADED_IMAGE_DEVICE_PATH)) \/
     installed (fst (i_db s')) h' g = installed (fst (i_db s)) h' g) /\
  (forall g, installed (fst (i_db s')) h g = installed (fst (i_db s)) h g \/ installed (fst (i_db s')) h g = None) /\
  Permutation (i_dbg s) (h :: i_dbg s') /\
  i_rt s' = (if im_kind im =? RUNTIME_DRIVER then filter (fun x => negb (x =? h)) (i_rt s) else i_rt s).
Proof.
  intros Q R P E F G Nl L. pose proof (polite_inv _ _ _ _ _ _ _ _ R) as I.
  destruct (step_removes fuel env s stk a o s' stk' h im I P E F G Nl) as (d & im' & Hd & Kd & Sd & Edb & Ei & Ep & Eg & Et).
  assert (Ld : live (fst d) h) by (apply (keeps_live _ _ _ Kd); exact L).
  destruct (gone_db_clean fuel env d h im' Q Hd Ld) as (A & B & C & D). rewrite Edb. repeat apply conj.
  - intros h' g c x Hh. rewrite <- (keeps_olive _ _ c Kd). apply (A h' g c x Hh).
  - intros h' g ag c x Hh. eapply shrinks_held; [exact Sd|]. apply B, Hh.
  - intros h' g. destruct (C h' g) as [X|X]; [left; exact X|right]. rewrite X. apply Kd.
  - intros g. destruct (D g) as [X|X]; [left; rewrite X; apply Kd|right; exact X].
  - rewrite Eg. apply dbg_remove_perm. assert (W : weak tr s). { eapply runs_weak. apply polite_is_run. exact R. }
    apply (w_dbg _ _ W). unfold loaded. congruence.
  - exact Et.
Qed.

Lemma gone_db_loaded_image fuel env d h im : quiet env -> shist d -> live (fst d) h ->
  installed (fst d) h LOADED_IMAGE = Some (im_info im) ->
  (forall a c x, held (fst d) h LOADED_IMAGE a c x -> a = h /\ olive (fst d) c) ->
  installed (fst (gone_db (S fuel) env d h im)) h LOADED_IMAGE = None.
Proof.
  intros Q H L Hi Ho. destruct (close_all_ok h d H L) as (H1 & K1 & S1 & C1). unfold gone_db. cbv zeta. set (d1 := close_all d h) in *.
  assert (N1 : no_opens (fst d1) h LOADED_IMAGE).
  { intros a c x. destruct (N.eq_dec (opens (fst d1) h LOADED_IMAGE a c x) 0) as [E|E]; [exact E|]. exfalso.
    assert (Hh : held (fst d1) h LOADED_IMAGE a c x) by exact E. destruct (Ho a c x) as [-> O]; [eapply shrinks_held; eauto|].
    apply (C1 h LOADED_IMAGE c x); assumption. }
  assert (Hi1 : installed (fst d1) h LOADED_IMAGE = Some (im_info im)) by (rewrite K1; exact Hi).
  destruct (core_uninstall_fresh fuel env d1 h LOADED_IMAGE (im_info im) H1 Hi1 N1) as (d2 & E2 & H2 & V2 & _). rewrite E2. cbn [snd].
  pose proof (core_uninstall_quiet (S fuel) env d2 h LOADED_IMAGE_DEVICE_PATH (im_path im) Q H2) as U3.
  assert (X : installed (fst d2) h LOADED_IMAGE = None) by (rewrite V2, !N.eqb_refl; reflexivity).
  destruct (core_uninstall (S fuel) env d2 h LOADED_IMAGE_DEVICE_PATH (im_path im)) as [r3 d3]. cbn [snd] in *.
  destruct r3; [|unfold keeps in U3; rewrite U3; exact X..]. destruct U3 as (_ & V3). rewrite V3, X. destruct (_ && _); reflexivity.
Qed.

(** When nobody but the image itself holds its LoadedImage protocol open, and its interface is the one LoadImage
    installed, that protocol is gone with the image. *)
Theorem unload_removes_loaded_image_protocol fuel env d0 info mem tr s stk a o s' stk' h im : quiet env ->
  polite_runs (S fuel) env d0 info mem tr s stk -> polite stk a o ->
  istep (S fuel) env s stk a = (o, s', stk') -> ~ fatal o ->
  om_get (i_imgs s) h = Some im -> ~ loaded s' h -> live (fst (i_db s)) h ->
  installed (fst (i_db s)) h LOADED_IMAGE = Some (im_info im) ->
  (forall ag c x, held (fst (i_db s)) h LOADED_IMAGE ag c x -> ag = h /\ olive (fst (i_db s)) c) ->
  installed (fst (i_db s')) h LOADED_IMAGE = None.
Proof.
  intros Q R P E F G Nl L Hi Ho. pose proof (polite_inv _ _ _ _ _ _ _ _ R) as I.
  destruct (step_removes (S fuel) env s stk a o s' stk' h im I P E F G Nl) as (d & im' & Hd & Kd & Sd & Edb & Ei & Ep & _).
  rewrite Edb. apply gone_db_loaded_image; auto.
  - apply (keeps_live _ _ _ Kd); exact L.
  - rewrite Kd, Ei. exact Hi.
  - intros ag c x Hh. rewrite (keeps_olive _ _ c Kd). apply (Ho ag c x). eapply shrinks_held; eauto.
Qed.

(** ** Loading *)

(** What LoadImage gives: a handle that named nothing; the status is what the security protocols said (the image is
    loaded whatever they said); the handle carries the LoadedImage protocol of the new image, the copy of its
    device path and its HII resource, and nothing else; the image was not started; no other image and no protocol
    of another handle changes; the image is last in the debug image table, and in the runtime list when it is a
    runtime driver.  The parent must be an image handle. *)
Theorem load_image_contract fuel env d0 info mem tr s stk l h st s' stk' : quiet env ->
  runs fuel env d0 info mem tr s stk -> istep fuel env s stk (ALoad l) = (Loaded h st, s', stk') ->
  exists p fv copy v, stk' = stk /\ la_pe l = inr p /\
    (la_buffer l = true /\ fv = false \/ la_buffer l = false /\ la_fetch l = inr fv) /\
    (la_path l = 0 /\ copy = 0 \/ la_path l <> 0 /\ la_copy l = inr copy) /\
    (exists i, installed (fst (i_db s)) (la_parent l) LOADED_IMAGE = Some i) /\
    verdict (fst (i_db s)) fv (la_ans2 l) (la_ans1 l) v /\
    st = match v with Some e => code e | None => 0 end /\
    ~ live (fst (i_db s)) h /\ h <> 0 /\
    (exists im, om_get (i_imgs s') h = Some im /\ im_started im = false /\ im_unload im = false /\ im_kind im = pe_kind p) /\
    (forall h', h' <> h -> om_get (i_imgs s') h' = om_get (i_imgs s) h') /\
    (forall h' g, installed (fst (i_db s')) h' g =
       if h' =? h then
         (if g =? LOADED_IMAGE then Some (pe_info p) else if g =? LOADED_IMAGE_DEVICE_PATH then Some copy
          else if g =? HII_PACKAGE_LIST then pe_hii p else None)
       else installed (fst (i_db s)) h' g) /\
    i_dbg s' = i_dbg s ++ [h] /\ i_rt s' = i_rt s ++ (if pe_kind p =? RUNTIME_DRIVER then [h] else []).
Proof.
  intros Q R E. pose proof (w_hist _ _ (runs_weak _ _ _ _ _ _ _ _ R)) as H. cbn [istep] in E.
  destruct (do_load env s l) as [o s1] eqn:X. eq3 E. apply do_load_case in X; [|exact H].
  remember (Loaded h st) as o eqn:Eo. destruct X as [s' h1 p sec fv copy Sm Ep Ef Ec Lp Ip Vd Ei Ed Er Ql|s' o Sm Ei O1 _ _ _ _ _].
  2: { exfalso. exact (O1 _ _ Eo). }
  injection Eo as -> <-. destruct (Ql Q) as [L1 L2 L3]. exists p, fv, copy, sec.
  do 7 (split; [auto|]). split; [exact L1|]. split; [exact L2|]. split.
  { exists (new_image p (la_path l)). rewrite Ei, om_get_set, N.eqb_refl. auto. }
  split. { intros h' Hn. rewrite Ei, om_get_set. destruct (N.eqb_spec h' h); [contradiction|reflexivity]. }
  split; [exact L3|]. split; [exact Ed|]. rewrite Er. destruct (_ =? _); [reflexivity|]. rewrite app_nil_r. reflexivity.
Qed.

(** A load that fails adds no image and changes none. *)
Theorem load_image_failure fuel env d0 info mem tr s stk l o s' stk' :
  runs fuel env d0 info mem tr s stk -> istep fuel env s stk (ALoad l) = (o, s', stk') ->
  (forall h st, o <> Loaded h st) -> i_imgs s' = i_imgs s /\ stk' = stk.
Proof.
  intros R E Hn. pose proof (w_hist _ _ (runs_weak _ _ _ _ _ _ _ _ R)) as H. cbn [istep] in E.
  destruct (do_load env s l) as [o1 s1] eqn:X. eq3 E. apply do_load_case in X; [|exact H].
  destruct X; [|auto]. exfalso. eapply Hn. reflexivity.
Qed.

(** ** The tables the debugger and SetVirtualAddressMap read *)

(** In any run, every loaded image is in the debug image table, and every loaded runtime driver in the list of
    images that are converted to virtual addressing. *)
Theorem loaded_images_are_listed fuel env d0 info mem tr s stk h im :
  runs fuel env d0 info mem tr s stk -> om_get (i_imgs s) h = Some im ->
  In h (i_dbg s) /\ (im_kind im = RUNTIME_DRIVER -> In h (i_rt s)).
Proof.
  intros R G. pose proof (runs_weak _ _ _ _ _ _ _ _ R) as W. split.
  - apply (w_dbg _ _ W). unfold loaded. congruence.
  - intros K. eapply (w_rt _ _ W); eauto.
Qed.

(** ** Crashes *)

(** While callers do not start or unload an image whose code is running, no call resumes a coroutine that is gone,
    and the only panic is LoadImage of a firmware volume file that Security2 accepts when there is no Security
    protocol.  ([image_nested_unload_refuted] and the others below: without the restriction both happen.) *)
Theorem image_services_no_crash_partial fuel env d0 info mem tr s stk a o s' stk' :
  polite_runs fuel env d0 info mem tr s stk -> polite stk a o -> istep fuel env s stk a = (o, s', stk') ->
  o <> Wild /\ (o = Crashed -> exists l, a = ALoad l /\ la_buffer l = false /\ la_fetch l = inr true /\
    usable (fst (i_db s)) SECURITY2 /\ ~ usable (fst (i_db s)) SECURITY).
Proof.
  intros R P E. destruct (step_inv fuel env s stk a o s' stk' (polite_inv _ _ _ _ _ _ _ _ R) P E) as (A & B & _). split; [exact A|].
  intros X. destruct (B X) as (l & -> & C & D & F & G). exists l. auto.
Qed.

(** ** Concrete runs *)

Fixpoint irun (fuel : nat) (env : penv) (s : ist) (stk : list frame) (l : list act) (tr : list (act * out))
  : list (act * out) * ist * list frame :=
  match l with
  | [] => (tr, s, stk)
  | a :: t => let '(o, s', stk') := istep fuel env s stk a in irun fuel env s' stk' t ((a, o) :: tr)
  end.
Definition bad (o : out) : bool := match o with Crashed | Wild | Stuck => true | _ => false end.
Lemma bad_fatal o : bad o = false -> ~ fatal o.
Proof. intros B [E|[E|E]]; subst; discriminate. Qed.
Lemma irun_runs fuel env d0 info mem : forall l tr s stk, runs fuel env d0 info mem tr s stk ->
  let '(tr', s', stk') := irun fuel env s stk l tr in forallb (fun x => negb (bad (snd x))) tr' = true ->
  runs fuel env d0 info mem tr' s' stk'.
Proof.
  assert (Sub : forall fuel env l s stk tr, exists p, fst (fst (irun fuel env s stk l tr)) = p ++ tr).
  { intros f e l. induction l as [|a t IH]; intros s stk tr; cbn [irun]; [exists []; reflexivity|].
    destruct (istep f e s stk a) as [[o s'] stk']. destruct (IH s' stk' ((a, o) :: tr)) as (p & ->). exists (p ++ [(a, o)]).
    rewrite <- app_assoc. reflexivity. }
  induction l as [|a t IH]; intros tr s stk R; cbn [irun]; [auto|].
  destruct (istep fuel env s stk a) as [[o s'] stk'] eqn:E. pose proof (Sub fuel env t s' stk' ((a, o) :: tr)) as (p & Ep).
  destruct (negb (bad o)) eqn:B.
  - apply IH. eapply runs_step; [exact R|exact E|]. apply bad_fatal. destruct (bad o); [discriminate|reflexivity].
  - destruct (irun fuel env s' stk' t ((a, o) :: tr)) as [[tr' s2] stk2]. cbn [fst] in Ep. intros X. exfalso. subst tr'.
    rewrite forallb_app in X. cbn [forallb snd] in X. rewrite B in X. rewrite andb_false_r in X. discriminate.
Qed.

Definition boot_db : pstate := prun (pdb_new 1 10) [] [OInstall None LOADED_IMAGE 500].
Lemma boot_hist : hist (fst boot_db) (snd boot_db). Proof. apply prun_hist, hist_new. Qed.
Lemma boot_core : installed (fst boot_db) CORE_HANDLE LOADED_IMAGE = Some 500. Proof. vm_compute. reflexivity. Qed.
Definition boot : ist := init_images boot_db 500 [].
Lemma boot_runs : runs 5 quiet_env boot_db 500 [] [] boot []. Proof. constructor; [exact boot_hist|exact boot_core]. Qed.
Lemma boot_polite : polite_runs 5 quiet_env boot_db 500 [] [] boot []. Proof. constructor; [exact boot_hist|exact boot_core]. Qed.

(** Load an image of the given kind, from a buffer with a device path at 40 copied to 41, LoadedImage at [i]. *)
Definition load (kind i : N) : act := ALoad (MkLoad 1 40 true (inr false) None None None (inr (MkPe kind i None [])) (inr 41)).
Definition go (l : list act) : list (act * out) * ist * list frame := irun 5 quiet_env boot [] l [].
Lemma go_runs l tr s stk : go l = (tr, s, stk) -> forallb (fun x => negb (bad (snd x))) tr = true -> runs 5 quiet_env boot_db 500 [] tr s stk.
Proof. intros E. pose proof (irun_runs 5 quiet_env boot_db 500 [] l [] boot [] boot_runs) as X. fold (go l) in X. rewrite E in X. exact X. Qed.

(** A boot driver (handle 2) starts an application (3); the application exits with exit data, StartImage returns them
    and the application is gone; the driver returns and stays loaded. *)
Definition demo_acts : list act :=
  [load BOOT_DRIVER 700; load APPLICATION 800; AStart 2 None; AStart 3 None; AExit 3 7 (4, 900); AReturn 0].
Example image_run_ex :
  map snd (fst (fst (go demo_acts))) =
    [Returned 0 None; Returned 7 (Some (4, 900)); Entered 3; Entered 2; Loaded 3 0; Loaded 2 0] /\
  om_keys (i_imgs (snd (fst (go demo_acts)))) = [1; 2] /\ i_dbg (snd (fst (go demo_acts))) = [1; 2] /\
  snd (go demo_acts) = [] /\
  installed (fst (i_db (snd (fst (go demo_acts))))) 3 LOADED_IMAGE = None.
Proof. repeat apply conj; vm_compute; reflexivity. Qed.

(** The same, checking that every call is polite. *)
Definition politeb (stk : list frame) (a : act) (o : out) : bool :=
  match a with
  | AStart h _ | AUnload h => negb (existsb (N.eqb h) (fhs stk))
  | ALoad _ => match o with Loaded h _ => negb (existsb (N.eqb h) (fhs stk)) | _ => true end
  | _ => true
  end.
Lemma politeb_polite stk a o : politeb stk a o = true -> polite stk a o.
Proof.
  assert (X : forall h, negb (existsb (N.eqb h) (fhs stk)) = true -> ~ busy stk h).
  { intros h E B. apply busy_fhs in B. assert (existsb (N.eqb h) (fhs stk) = true).
    { apply existsb_exists. exists h. rewrite N.eqb_refl. auto. } rewrite H in E. discriminate. }
  destruct a; cbn [politeb polite]; auto. destruct o; intros E h0 st0 Eo; try discriminate. injection Eo as -> <-. apply X, E.
Qed.
Fixpoint politely (fuel : nat) (env : penv) (s : ist) (stk : list frame) (l : list act) : bool :=
  match l with
  | [] => true
  | a :: t => let '(o, s', stk') := istep fuel env s stk a in
              politeb stk a o && negb (bad o) && politely fuel env s' stk' t
  end.
Lemma irun_polite fuel env d0 info mem : forall l tr s stk, polite_runs fuel env d0 info mem tr s stk ->
  politely fuel env s stk l = true ->
  let '(tr', s', stk') := irun fuel env s stk l tr in polite_runs fuel env d0 info mem tr' s' stk'.
Proof.
  induction l as [|a t IH]; intros tr s stk R B; cbn [irun politely] in *; [exact R|].
  destruct (istep fuel env s stk a) as [[o s'] stk'] eqn:E. apply andb_true_iff in B. destruct B as [B1 B2].
  apply andb_true_iff in B1. destruct B1 as [B0 B1]. apply IH; [|exact B2]. eapply polite_step; [exact R| |exact E|].
  - apply politeb_polite, B0.
  - apply bad_fatal. destruct (bad o); [discriminate|reflexivity].
Qed.
Lemma go_polite l tr s stk : go l = (tr, s, stk) -> politely 5 quiet_env boot [] l = true ->
  polite_runs 5 quiet_env boot_db 500 [] tr s stk.
Proof. intros E B. pose proof (irun_polite 5 quiet_env boot_db 500 [] l [] boot [] boot_polite B) as X. fold (go l) in X. rewrite E in X. exact X. Qed.
Lemma go_eta l : go l = (fst (fst (go l)), snd (fst (go l)), snd (go l)).
Proof. destruct (go l) as [[? ?] ?]. reflexivity. Qed.

Lemma go_nil l : snd (go l) = [] -> go l = (fst (fst (go l)), snd (fst (go l)), []).
Proof. destruct (go l) as [[? ?] ?]. cbn. intros ->. reflexivity. Qed.
Definition st_of (l : list act) : ist := snd (fst (go l)).

(** The hypotheses of the theorems above hold along that run. *)
Definition two_running : list act := [load BOOT_DRIVER 700; load APPLICATION 800; AStart 2 None; AStart 3 None].
Example image_hypotheses_ex :
  polite_runs 5 quiet_env boot_db 500 [] (fst (fst (go two_running))) (st_of two_running) (snd (go two_running)) /\
  (* the application runs, on top of the driver that started it *)
  entries (snd (go two_running)) = [3; 2] /\
  live (fst (i_db (st_of two_running))) 3 /\
  option_map im_started (om_get (i_imgs (st_of two_running)) 3) = Some true /\
  (* its Exit ends its StartImage: [start_ends] holds through its second case *)
  fst (fst (istep 5 quiet_env (st_of two_running) (snd (go two_running)) (AExit 3 0 (0, 0)))) = Returned 0 None /\
  (* an Exit that names the driver is refused *)
  fst (fst (istep 5 quiet_env (st_of two_running) (snd (go two_running)) (AExit 2 0 (0, 0)))) = Returned 2 None.
Proof.
  split; [apply (go_polite two_running); [apply go_eta|vm_compute; reflexivity]|].
  split; [vm_compute; reflexivity|]. split; [exists LOADED_IMAGE, 800; vm_compute; reflexivity|].
  repeat apply conj; vm_compute; reflexivity.
Qed.
(** With an unload function: UnloadImage runs it, and its return removes the image; an error keeps it. *)
Definition with_unload : list act := [load BOOT_DRIVER 700; AStart 2 None; ASetUnload 2 true; AReturn 0; AUnload 2].
Example image_unload_function_ex :
  polite_runs 5 quiet_env boot_db 500 [] (fst (fst (go with_unload))) (st_of with_unload) (snd (go with_unload)) /\
  snd (go with_unload) = [FUnload 2 ByService] /\
  fst (fst (istep 5 quiet_env (st_of with_unload) [FUnload 2 ByService] (AReturn 0))) = Returned 0 None /\
  om_keys (i_imgs (snd (fst (istep 5 quiet_env (st_of with_unload) [FUnload 2 ByService] (AReturn 0))))) = [1] /\
  om_keys (i_imgs (snd (fst (istep 5 quiet_env (st_of with_unload) [FUnload 2 ByService] (AReturn 9))))) = [1; 2].
Proof.
  split; [apply (go_polite with_unload); [apply go_eta|vm_compute; reflexivity]|]. repeat apply conj; vm_compute; reflexivity.
Qed.
(** An image that opened a protocol of another handle: unloading closes it. *)
Definition with_open : list act := [load BOOT_DRIVER 700; load BOOT_DRIVER 800; ADb (OOpen 3 LOADED_IMAGE (Some 2) (Some 3) 0x10)].
Example image_unload_closes_ex :
  polite_runs 5 quiet_env boot_db 500 [] (fst (fst (go with_open))) (st_of with_open) (snd (go with_open)) /\
  opens (fst (i_db (st_of with_open))) 3 LOADED_IMAGE 2 (Some 3) 0x10 = 1 /\
  opens (fst (i_db (st_of (with_open ++ [AUnload 2])))) 3 LOADED_IMAGE 2 (Some 3) 0x10 = 0 /\
  installed (fst (i_db (st_of (with_open ++ [AUnload 2])))) 2 LOADED_IMAGE = None.
Proof.
  split; [apply (go_polite with_open); [apply go_eta|vm_compute; reflexivity]|]. repeat apply conj; vm_compute; reflexivity.
Qed.

(** ** What a caller must not rely on *)

(** StartImage of an image that was already started does not just fail: it unloads the image.  Here a driver that
    runs calls StartImage on itself, and its own record goes while its code runs. *)
Theorem start_image_of_running_image_refuted : exists tr s stk h s',
  runs 5 quiet_env boot_db 500 [] tr s stk /\ loaded s h /\ In h (entries stk) /\
  istep 5 quiet_env s stk (AStart h None) = (Returned 2 None, s', stk) /\ ~ loaded s' h.
Proof.
  set (l := [load BOOT_DRIVER 700; AStart 2 None]).
  exists (fst (fst (go l))), (st_of l), (snd (go l)), 2, (snd (fst (istep 5 quiet_env (st_of l) (snd (go l)) (AStart 2 None)))).
  split; [apply (go_runs l); [apply go_eta|vm_compute; reflexivity]|]. split; [vm_compute; discriminate|].
  split; [vm_compute; auto|]. split; [vm_compute; reflexivity|]. vm_compute. intros X. apply X. reflexivity.
Qed.
(** The same call unloads the DXE core's own image. *)
Theorem start_image_of_core_refuted : exists s', istep 5 quiet_env boot [] (AStart CORE_HANDLE None) = (Returned 2 None, s', []) /\
  ~ loaded s' CORE_HANDLE /\ installed (fst (i_db s')) CORE_HANDLE LOADED_IMAGE = None.
Proof.
  eexists (snd (fst (istep 5 quiet_env boot [] (AStart CORE_HANDLE None)))).
  split; [vm_compute; reflexivity|]. split; [vm_compute; intros X; apply X; reflexivity|vm_compute; reflexivity].
Qed.
(** ... and so a driver that succeeded and stays resident is unloaded by a second StartImage, which reports the exit
    data of the first. *)
Theorem start_image_twice_refuted : exists tr s h s', polite_runs 5 quiet_env boot_db 500 [] tr s [] /\ loaded s h /\
  istep 5 quiet_env s [] (AStart h None) = (Returned 2 (Some (4, 900)), s', []) /\ ~ loaded s' h.
Proof.
  set (l := [load BOOT_DRIVER 700; AStart 2 None; AExit 2 0 (4, 900)]).
  exists (fst (fst (go l))), (st_of l), 2, (snd (fst (istep 5 quiet_env (st_of l) [] (AStart 2 None)))).
  split. { apply (go_polite l); [apply go_nil; vm_compute; reflexivity|vm_compute; reflexivity]. }
  split; [vm_compute; discriminate|]. split; [vm_compute; reflexivity|]. vm_compute. intros X. apply X. reflexivity.
Qed.
(** An unload function that calls UnloadImage on its own image, and succeeds twice, panics the core. *)
Theorem image_nested_unload_refuted : exists tr s stk, runs 5 quiet_env boot_db 500 [] tr s stk /\
  fst (fst (istep 5 quiet_env s stk (AReturn 0))) = Crashed.
Proof.
  set (l := with_unload ++ [AUnload 2; AReturn 0]). exists (fst (fst (go l))), (st_of l), (snd (go l)).
  split; [apply (go_runs l); [apply go_eta|vm_compute; reflexivity]|vm_compute; reflexivity].
Qed.
(** An image that is unloaded while it runs leaves its coroutine behind: a later Exit of the image that started it
    resumes the wrong coroutine, one that no longer exists. *)
Theorem image_unloaded_while_running_refuted : exists tr s stk h, runs 5 quiet_env boot_db 500 [] tr s stk /\
  hd_error (entries stk) = Some h /\ fst (fst (istep 5 quiet_env s stk (AExit h 0 (0, 0)))) = Wild.
Proof.
  set (l := [load BOOT_DRIVER 700; load BOOT_DRIVER 800; AStart 2 None; AStart 3 None; AStart 3 None; AReturn 0]).
  exists (fst (fst (go l))), (st_of l), (snd (go l)), 2.
  split; [apply (go_runs l); [apply go_eta|vm_compute; reflexivity]|]. split; vm_compute; reflexivity.
Qed.
(** The copy of the device path stays installed on the handle after the image is gone (the uninstall names the
    original path, not the copy), and so does the HII package list, whose memory was freed with the image. *)
Theorem unload_leaves_protocols_refuted : exists tr s h, runs 5 quiet_env boot_db 500 [] tr s [] /\ ~ loaded s h /\
  installed (fst (i_db s)) h LOADED_IMAGE_DEVICE_PATH = Some 41 /\ installed (fst (i_db s)) h HII_PACKAGE_LIST = Some 42 /\
  entered tr h = 0%nat /\ In (AUnload h, Returned 0 None) tr.
Proof.
  set (l := [ALoad (MkLoad 1 40 true (inr false) None None None (inr (MkPe BOOT_DRIVER 700 (Some 42) [])) (inr 41)); AUnload 2]).
  exists (fst (fst (go l))), (st_of l), 2. assert (E : snd (go l) = []) by (vm_compute; reflexivity).
  split. { apply (go_runs l); [exact (go_nil l E)|vm_compute; reflexivity]. }
  split; [vm_compute; intros X; apply X; reflexivity|]. split; [vm_compute; reflexivity|]. split; [vm_compute; reflexivity|].
  split; [vm_compute; reflexivity|]. vm_compute. left. reflexivity.
Qed.
(** An image that the security protocols reject with EFI_ACCESS_DENIED is loaded all the same, and its entry point
    can be run. *)
Definition denied : load_args := MkLoad 1 40 true (inr false) (Some AccessDenied) None None (inr (MkPe BOOT_DRIVER 700 None [])) (inr 41).
Theorem denied_image_runs_refuted : exists tr s stk h, polite_runs 5 quiet_env boot_db 500 [] tr s stk /\
  In (ALoad denied, Loaded h 15) tr /\ In (AStart h None, Entered h) tr /\ entries stk = [h].
Proof.
  set (l := [ADb (OInstall None SECURITY2 77); ALoad denied; AStart 3 None]). exists (fst (fst (go l))), (st_of l), (snd (go l)), 3.
  split; [apply (go_polite l); [apply go_eta|vm_compute; reflexivity]|]. split; [vm_compute; auto|]. split; vm_compute; auto.
Qed.
(** A load that fails late leaves a handle with a LoadedImage protocol, and a debug table entry, for an image that
    is not loaded. *)
Theorem load_image_late_failure_refuted : exists l s' st h, istep 5 quiet_env boot [] (ALoad l) = (Returned st None, s', []) /\
  st <> 0 /\ ~ loaded s' h /\ installed (fst (i_db s')) h LOADED_IMAGE = Some 700 /\ In h (i_dbg s').
Proof.
  set (l := MkLoad 1 40 true (inr false) None None None (inr (MkPe BOOT_DRIVER 700 None [])) (inl OutOfResources)).
  exists l, (snd (fst (istep 5 quiet_env boot [] (ALoad l)))), 9, 2.
  split; [vm_compute; reflexivity|]. split; [discriminate|]. split; [vm_compute; intros X; apply X; reflexivity|].
  split; [vm_compute; reflexivity|]. vm_compute. auto.
Qed.
(** LoadImage panics for a firmware volume file that Security2 accepts when Security is not installed. *)
Theorem load_image_no_panic_refuted : exists tr s l, polite_runs 5 quiet_env boot_db 500 [] tr s [] /\
  fst (fst (istep 5 quiet_env s [] (ALoad l))) = Crashed.
Proof.
  set (l := [ADb (OInstall None SECURITY2 77)]). exists (fst (fst (go l))), (st_of l), (MkLoad 1 40 false (inr true) None None None (inr (MkPe BOOT_DRIVER 700 None [])) (inr 41)).
  assert (E : snd (go l) = []) by (vm_compute; reflexivity).
  split. { apply (go_polite l); [exact (go_nil l E)|vm_compute; reflexivity]. } vm_compute. reflexivity.
Qed.

Print Assumptions image_entry_point_runs_at_most_once.
Print Assumptions start_image_enters.
Print Assumptions start_image_unknown.
Print Assumptions exit_ends_start.
Print Assumptions entry_return_ends_start.
Print Assumptions unload_function_return.
Print Assumptions exit_of_another_image.
Print Assumptions exit_of_unknown_image.
Print Assumptions exit_of_unstarted_image.
Print Assumptions unload_image_contract.
Print Assumptions unload_cleans_up.
Print Assumptions unload_removes_loaded_image_protocol.
Print Assumptions load_image_contract.
Print Assumptions load_image_failure.
Print Assumptions loaded_images_are_listed.
Print Assumptions image_services_no_crash_partial.
