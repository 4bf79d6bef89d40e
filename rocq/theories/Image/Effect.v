(** What every step does to the loaded images, in any run. *)
From Coq Require Import Permutation.
From Verif Require Import Base.Prelude Base.Omap Protocol.Model Protocol.Spec Protocol.Proofs Protocol.Usage
  Protocol.Services Protocol.SvcProofs Protocol.Props Image.Model Image.Spec Image.Close Image.Proofs Image.Load.
Local Open Scope N_scope.

(** ** The debug image info table *)
Lemma last_app_single {A} (l : list A) (x d : A) : last (l ++ [x]) d = x.
Proof. induction l as [|y t IH]; [reflexivity|]. cbn [app last]. destruct (t ++ [x]) eqn:E; [destruct t; discriminate|]. exact IH. Qed.
Lemma split_last {A} (l : list A) : l <> [] -> exists t x, l = t ++ [x].
Proof. intros H. destruct (exists_last H) as (t & x & ->). eauto. Qed.

Lemma dbg_replace_app l x h : ~ In h l -> dbg_replace (l ++ [h]) h x = l ++ [x].
Proof.
  induction l as [|y t IH]; cbn [app dbg_replace In]; intros Hn; [rewrite N.eqb_refl; reflexivity|].
  destruct (N.eqb_spec y h); [tauto|]. rewrite IH by tauto. reflexivity.
Qed.
Lemma dbg_replace_in l x y h : In h l -> exists l1 l2, l = l1 ++ h :: l2 /\ ~ In h l1 /\
  dbg_replace (l ++ [y]) h x = l1 ++ x :: l2 ++ [y].
Proof.
  induction l as [|z t IH]; intros H; [destruct H|]. cbn [app dbg_replace]. destruct (N.eqb_spec z h) as [->|Hz].
  - exists [], t. split; [reflexivity|]. split; [intros []|reflexivity].
  - destruct H as [H|H]; [congruence|]. destruct (IH H) as (l1 & l2 & -> & B & C). exists (z :: l1), l2.
    split; [reflexivity|]. split; [intros [X|X]; [congruence|tauto]|]. rewrite C. reflexivity.
Qed.

(** One entry of the handle goes; all other entries stay. *)
Lemma dbg_remove_perm l h : In h l -> Permutation l (h :: dbg_remove l h).
Proof.
  intros H. unfold dbg_remove. assert (E : existsb (N.eqb h) l = true).
  { apply existsb_exists. exists h. rewrite N.eqb_refl. auto. }
  rewrite E. destruct (split_last l) as (t & x & ->); [intros ->; destruct H|]. rewrite last_app_single.
  destruct (in_dec N.eq_dec h t) as [Ht|Ht].
  - destruct (dbg_replace_in t x x h Ht) as (l1 & l2 & Et & _ & ->).
    replace (l1 ++ x :: l2 ++ [x]) with ((l1 ++ x :: l2) ++ [x]) by (rewrite <- app_assoc; reflexivity).
    rewrite removelast_last, Et. rewrite <- app_assoc. cbn [app].
    transitivity (h :: l1 ++ l2 ++ [x]); [symmetry; apply Permutation_middle|]. apply perm_skip.
    apply Permutation_app_head. rewrite Permutation_app_comm. reflexivity.
  - assert (x = h). { apply in_app_or in H. destruct H as [H|[H|[]]]; [contradiction|exact H]. } subst x.
    rewrite dbg_replace_app by exact Ht. rewrite removelast_last, Permutation_app_comm. reflexivity.
Qed.
Lemma dbg_remove_none l h : ~ In h l -> dbg_remove l h = l.
Proof.
  intros H. unfold dbg_remove. destruct (existsb (N.eqb h) l) eqn:E; [|reflexivity]. apply existsb_exists in E.
  destruct E as (x & A & B). apply N.eqb_eq in B. subst. contradiction.
Qed.
Lemma dbg_remove_in l h x : x <> h -> (In x (dbg_remove l h) <-> In x l).
Proof.
  intros Hx. destruct (in_dec N.eq_dec h l) as [H|H]; [|rewrite dbg_remove_none by exact H; reflexivity].
  pose proof (dbg_remove_perm l h H) as P. split; intros X.
  - eapply Permutation_in; [symmetry; exact P|]. right. exact X.
  - apply (Permutation_in _ P) in X. destruct X as [X|X]; [congruence|exact X].
Qed.

(** ** Steps that neither load nor start anything *)
Record calm (s s' : ist) : Prop := MkCalm {
  c_hist : shist (i_db s');
  c_sort : om_sorted (i_imgs s');
  c_img : forall h im', om_get (i_imgs s') h = Some im' -> exists im, om_get (i_imgs s) h = Some im /\
            im_started im' = im_started im /\ im_kind im' = im_kind im;
  c_dbg : forall h, loaded s' h -> In h (i_dbg s) -> In h (i_dbg s');
  c_rt : forall h, loaded s' h -> In h (i_rt s) -> In h (i_rt s') }.

Lemma calm_trans a b c : calm a b -> calm b c -> calm a c.
Proof.
  intros [A1 A2 A3 A4 A5] [B1 B2 B3 B4 B5]. constructor; auto.
  - intros h im' G. destruct (B3 _ _ G) as (im1 & G1 & E1 & E2). destruct (A3 _ _ G1) as (im & G0 & F1 & F2).
    exists im. split; [exact G0|]. split; congruence.
  - intros h L X. assert (Lb : loaded b h).
    { unfold loaded in *. destruct (om_get (i_imgs c) h) as [im|] eqn:G; [|congruence]. destruct (B3 _ _ G) as (im1 & -> & _). discriminate. }
    apply B4; [exact L|]. apply A4; assumption.
  - intros h L X. assert (Lb : loaded b h).
    { unfold loaded in *. destruct (om_get (i_imgs c) h) as [im|] eqn:G; [|congruence]. destruct (B3 _ _ G) as (im1 & -> & _). discriminate. }
    apply B5; [exact L|]. apply A5; assumption.
Qed.

Lemma calm_same s s' : shist (i_db s') -> om_sorted (i_imgs s) -> i_imgs s' = i_imgs s -> i_dbg s' = i_dbg s -> i_rt s' = i_rt s ->
  calm s s'.
Proof. intros H1 H2 E1 E2 E3. constructor; rewrite ?E1, ?E2, ?E3; auto. intros h im' G. exists im'. auto. Qed.

Lemma calm_removed s s' h im : shist (i_db s') -> om_sorted (i_imgs s) -> removed s s' h im -> calm s s'.
Proof.
  intros H So (M1 & M2 & M3 & M4 & M5 & M6).
  assert (Ne : forall x, loaded s' x -> x <> h).
  { intros x L ->. apply L. rewrite M1, om_get_del by exact So. rewrite N.eqb_refl. reflexivity. }
  constructor; rewrite ?M1; auto.
  - apply om_sorted_del, So.
  - intros h' im' G. rewrite om_get_del in G by exact So. destruct (h' =? h); [discriminate|]. eauto.
  - intros x L X. rewrite M5. apply dbg_remove_in; [apply Ne, L|exact X].
  - intros x L X. rewrite M6. destruct (_ =? _); [|exact X]. unfold rt_remove. apply filter_In. split; [exact X|].
    apply Ne in L. destruct (N.eqb_spec x h); [contradiction|reflexivity].
Qed.

Definition quiet_out (o : out) : Prop := (forall h st, o <> Loaded h st) /\ (forall h, o <> Entered h).

Lemma unload_result_quiet k st : quiet_out (unload_result k st).
Proof. split; destruct k; discriminate. Qed.

Lemma unload_case_calm fuel env s stk h force k o s' stk' : shist (i_db s) -> om_sorted (i_imgs s) ->
  unload_case fuel env s stk h force k o s' stk' -> quiet_out o /\ (~ fatal o -> calm s s').
Proof.
  intros H So C. destruct C as [s' st R Ed X|s' im R Ed G St U L|s' im G Rm L X Ed|s'].
  - split; [apply unload_result_quiet|]. intros _. destruct R as (R1 & _ & _ & R4 & R5 & _). apply calm_same; auto. rewrite Ed. apply call_hist, H.
  - split; [split; discriminate|]. intros _. destruct R as (R1 & _ & _ & R4 & R5 & _). apply calm_same; auto. rewrite Ed. apply call_hist, H.
  - split; [apply unload_result_quiet|]. intros _. eapply calm_removed; eauto. rewrite Ed. apply gone_db_hist, call_hist, H.
  - split; [split; discriminate|]. intros F. exfalso. apply F. right. right. reflexivity.
Qed.

Lemma after_start_calm fuel env s stk h st o s' stk' : shist (i_db s) -> om_sorted (i_imgs s) ->
  after_start fuel env s stk h st = (o, s', stk') -> quiet_out o /\ (~ fatal o -> calm s s').
Proof.
  intros H So E. unfold after_start in E. destruct (negb (st =? 0) || _).
  - apply do_unload_case in E; [|exact H]. eapply unload_case_calm; eauto.
  - eq3 E. split; [split; discriminate|]. intros _. apply calm_same; auto.
Qed.

Lemma entry_done_calm fuel env s stk h prev svc st o s' stk' : shist (i_db s) -> om_sorted (i_imgs s) ->
  entry_done fuel env s stk h prev svc st = (o, s', stk') -> quiet_out o /\ (~ fatal o -> calm s s').
Proof.
  intros H So E. unfold entry_done in E. destruct svc.
  - assert (C : calm s (set_cur s prev)) by (apply calm_same; auto).
    destruct (after_start_calm fuel env (set_cur s prev) stk h st o s' stk' H So E) as [A B]. split; [exact A|].
    intros F. eapply calm_trans; eauto.
  - eq3 E. split; [split; discriminate|]. intros _. apply calm_same; auto.
Qed.

Lemma do_exit_calm fuel env s stk h st data o s' stk' : shist (i_db s) -> om_sorted (i_imgs s) ->
  do_exit fuel env s stk h st data = (o, s', stk') -> quiet_out o /\ (~ fatal o -> calm s s').
Proof.
  intros H So E. unfold do_exit in E. destruct (om_get (i_imgs s) h) as [im|] eqn:G.
  2: { eq3 E. split; [split; discriminate|]. intros _. apply calm_same; auto. }
  destruct (negb (im_started im)).
  - destruct (do_unload fuel env s stk h true ByService) as [[o1 s1] stk1] eqn:U.
    apply do_unload_case in U; [|exact H]. destruct (unload_case_calm _ _ _ _ _ _ _ _ _ _ H So U) as [[Q1 Q2] C].
    destruct o1; eq3 E; try (split; [split; congruence|exact C]).
    split; [split; discriminate|]. intros _. apply C. intros [X|[X|X]]; discriminate.
  - destruct (negb (oeqb (Some h) (i_cur s))).
    { eq3 E. split; [split; discriminate|]. intros _. apply calm_same; auto. }
    set (s1 := if _ : bool then _ else s) in E.
    assert (C1 : calm s s1).
    { unfold s1. destruct (_ && _); [|apply calm_same; auto]. constructor; cbn [set_imgs i_db i_imgs i_dbg i_rt]; auto.
      - apply om_sorted_set, So.
      - intros h' im' G'. rewrite om_get_set in G'. destruct (N.eqb_spec h' h) as [->|]; [|eauto]. injection G' as <-. exists im. auto. }
    destruct (i_ctx s1) as [|id ctx].
    { eq3 E. split; [split; discriminate|]. auto. }
    destruct (unwind stk id) as [[[[h' prev] svc] below]|].
    2: { eq3 E. split; [split; discriminate|]. intros F. exfalso. apply F. right. left. reflexivity. }
    assert (C2 : calm s (set_ctx s1 ctx)). { eapply calm_trans; [exact C1|]. apply calm_same; auto; apply C1. }
    destruct (entry_done_calm fuel env (set_ctx s1 ctx) below h' prev svc st o s' stk' (c_hist _ _ C2) (c_sort _ _ C2) E) as [A B].
    split; [exact A|]. intros F. eapply calm_trans; eauto.
Qed.

(** Every step: it loads one image, starts one, or is calm. *)
Definition effect (s s' : ist) (o : out) : Prop :=
  (exists h st p path, o = Loaded h st /\ shist (i_db s') /\ om_sorted (i_imgs s') /\
     i_imgs s' = om_set (i_imgs s) h (new_image p path) /\ i_dbg s' = i_dbg s ++ [h] /\
     i_rt s' = (if pe_kind p =? RUNTIME_DRIVER then i_rt s ++ [h] else i_rt s)) \/
  (exists h im, o = Entered h /\ shist (i_db s') /\ om_sorted (i_imgs s') /\ om_get (i_imgs s) h = Some im /\
     im_started im = false /\ i_imgs s' = om_set (i_imgs s) h (set_started im) /\ i_dbg s' = i_dbg s /\ i_rt s' = i_rt s) \/
  (quiet_out o /\ calm s s').

Lemma step_effect fuel env s stk a o s' stk' : shist (i_db s) -> om_sorted (i_imgs s) ->
  istep fuel env s stk a = (o, s', stk') -> ~ fatal o -> effect s s' o.
Proof.
  intros H So E F.
  assert (Cm : quiet_out o /\ (~ fatal o -> calm s s') -> effect s s' o) by (intros [A B]; right; right; auto).
  destruct a as [l|h mem|h mem|h|h st data|st|h b|q]; cbn [istep] in E.
  - destruct (do_load env s l) as [o1 s1] eqn:L. eq3 E. apply do_load_case in L; [|exact H].
    destruct L as [s' h p sec fv copy Sm Ep Ef Ec Lp Ip Vd Ei Ed Er Q|s' o Sm Ei O1 O0 O2 O3 (l1 & Ed) (l2 & Er)].
    + left. eexists h, _, p, (la_path l). split; [reflexivity|]. split; [apply Sm|]. split; [rewrite Ei; apply om_sorted_set, So|]. auto.
    + apply Cm. split; [split; assumption|]. intros _. constructor; rewrite ?Ei, ?Ed, ?Er; auto.
      * apply Sm.
      * intros h im' G. exists im'. auto.
      * intros h _ X. apply in_or_app. left. exact X.
      * intros h _ X. apply in_or_app. left. exact X.
  - apply do_start_case in E; [|exact H]. destruct E as (s1 & R & Ed & [(im & G & St & _ & _ & -> & -> & ->)|(e & _ & E)]);
      pose proof R as (R1 & R2 & R3 & R4 & R5 & R6).
    + right. left. exists h, im. split; [reflexivity|]. cbn [i_db i_imgs i_dbg i_rt]. rewrite R1, Ed.
      split; [apply call_hist, H|]. split; [apply om_sorted_set, So|]. auto.
    + apply Cm. symmetry in E. assert (C1 : calm s s1). { apply calm_same; auto. rewrite Ed. apply call_hist, H. }
      destruct (after_start_calm fuel env s1 stk h (code e) o s' stk' (c_hist _ _ C1) ltac:(rewrite R1; exact So) E) as [A B].
      split; [exact A|]. intros X. eapply calm_trans; eauto.
  - apply do_start_case in E; [|exact H]. destruct E as (s1 & R & Ed & [(im & G & St & _ & _ & -> & -> & ->)|(e & _ & E)]);
      pose proof R as (R1 & R2 & R3 & R4 & R5 & R6).
    + right. left. exists h, im. split; [reflexivity|]. cbn [i_db i_imgs i_dbg i_rt]. rewrite R1, Ed.
      split; [apply call_hist, H|]. split; [apply om_sorted_set, So|]. auto.
    + apply Cm. symmetry in E. eq3 E. split; [split; discriminate|]. intros _. apply calm_same; auto. rewrite Ed. apply call_hist, H.
  - apply Cm. apply do_unload_case in E; [|exact H]. eapply unload_case_calm; eauto.
  - apply Cm. eapply do_exit_calm; eauto.
  - apply Cm. destruct stk as [|[id h prev svc|h k] below].
    + eq3 E. split; [split; discriminate|]. intros _. apply calm_same; auto.
    + unfold entry_returned in E. destruct (do_exit fuel env s (FEntry id h prev svc :: below) h st (0, 0)) as [[o1 s1] stk1] eqn:X.
      destruct (do_exit_calm _ _ _ _ _ _ _ _ _ _ H So X) as [Q C].
      destruct o1; try (eq3 E; split; [exact Q|exact C]).
      assert (C1 : calm s s1). { apply C. intros [Y|[Y|Y]]; discriminate. }
      destruct stk1 as [|[id' h' p' v'|h' k'] t]; try (eq3 E; split; [exact Q|exact C]).
      destruct ((id' =? id) && _); [|eq3 E; split; [exact Q|exact C]].
      destruct (entry_done_calm _ _ _ _ _ _ _ _ _ _ _ (c_hist _ _ C1) (c_sort _ _ C1) E) as [A B]. split; [exact A|].
      intros Y. eapply calm_trans; eauto.
    + unfold unload_returned in E. destruct (st =? 0).
      * unfold finish_unload in E. destruct (om_get (i_imgs s) h) as [im|] eqn:G.
        -- destruct (remove_image_ok fuel env s h im H G) as [(s2 & Er)|(s2 & Er & Rm & Edb)]; rewrite Er in E; eq3 E.
           ++ exfalso. apply F. right. right. reflexivity.
           ++ split; [apply unload_result_quiet|]. intros _. eapply calm_removed; eauto. rewrite Edb. apply gone_db_hist, H.
        -- assert (Er : fst (remove_image fuel env s h) = Some Crashed).
           { unfold remove_image. cbn [set_dbg set_db i_imgs]. rewrite G. reflexivity. }
           destruct (remove_image fuel env s h) as [r s2]. cbn [fst] in Er. subst r. eq3 E. exfalso. apply F. left. reflexivity.
      * eq3 E. split; [apply unload_result_quiet|]. intros _. apply calm_same; auto.
  - apply Cm. eq3 E. split; [split; discriminate|]. intros _.
    constructor; cbn [set_imgs i_db i_imgs i_dbg i_rt]; auto; [apply om_sorted_upd, So|].
    intros h' im' G. rewrite om_get_upd in G. destruct (N.eqb_spec h' h) as [->|]; [|eauto].
    destruct (om_get (i_imgs s) h) as [im|]; [|discriminate]. cbn [option_map] in G. injection G as <-. exists im. auto.
  - apply Cm. destruct (db_call s q) as [r s1] eqn:V. apply db_call_rest in V. destruct V as (R & Ed & Ev).
    destruct R as (R1 & R2 & R3 & R4 & R5 & R6). eq3 E. split; [|intros _; apply calm_same; auto; rewrite Ed; apply call_hist, H].
    split; destruct (fst (call (i_db s) q)); discriminate.
Qed.

(** ** Over whole runs *)
Record weak (tr : list (act * out)) (s : ist) : Prop := MkWeak {
  w_hist : shist (i_db s);
  w_sort : om_sorted (i_imgs s);
  w_once : forall h, (entered tr h <= 1)%nat;
  w_fresh : forall h im, om_get (i_imgs s) h = Some im -> im_started im = false -> entered tr h = 0%nat;
  w_dbg : forall h, loaded s h -> In h (i_dbg s);
  w_rt : forall h im, om_get (i_imgs s) h = Some im -> im_kind im = RUNTIME_DRIVER -> In h (i_rt s) }.

Lemma entered_quiet a o tr h : quiet_out o -> entered ((a, o) :: tr) h = entered tr h.
Proof. intros [A B]. destruct o; try reflexivity; exfalso; [apply (A h0 st)|apply (B h0)]; reflexivity. Qed.

Lemma runs_weak fuel env d0 info mem tr s stk : runs fuel env d0 info mem tr s stk -> weak tr s.
Proof.
  induction 1 as [H Hi|tr s stk a o s' stk' R IH E F].
  - destruct (init_inv d0 info mem H). constructor; cbn [entered]; auto.
    + intros h L. unfold loaded in L. cbn [init_images i_imgs om_get] in L. destruct (N.eqb_spec h CORE_HANDLE) as [X|X]; [|congruence].
      left. symmetry. exact X.
    + intros h im. cbn [init_images i_imgs om_get]. destruct (h =? CORE_HANDLE); [|discriminate]. intros X. injection X as <-. discriminate.
  - destruct IH. destruct (step_effect fuel env s stk a o s' stk' w_hist0 w_sort0 E F)
      as [(h & st & p & path & -> & H' & S' & Ei & Ed & Er)|[(h & im & -> & H' & S' & G & St & Ei & Ed & Er)|[Q C]]].
    + constructor; auto; cbn [entered].
      * intros h'. destruct (h' =? h); [lia|apply w_once0].
      * intros h' im'. rewrite Ei, om_get_set. destruct (h' =? h); [reflexivity|apply w_fresh0].
      * intros h' L. unfold loaded in L. rewrite Ei, om_get_set in L. rewrite Ed. apply in_or_app.
        destruct (N.eqb_spec h' h) as [Y|Y]; [right; left; symmetry; exact Y|left; apply w_dbg0, L].
      * intros h' im'. rewrite Ei, om_get_set, Er. destruct (N.eqb_spec h' h) as [->|]; intros X Y.
        -- injection X as <-. cbn [new_image im_kind] in Y. rewrite Y, N.eqb_refl. apply in_or_app. right. left. reflexivity.
        -- destruct (_ =? _); [apply in_or_app; left|]; eapply w_rt0; eauto.
    + constructor; auto; cbn [entered].
      * intros h'. destruct (N.eqb_spec h' h) as [->|]; [|apply w_once0]. rewrite (w_fresh0 _ _ G St). lia.
      * intros h' im'. rewrite Ei, om_get_set. destruct (h' =? h); [|apply w_fresh0]. intros X. injection X as <-. discriminate.
      * intros h' L. unfold loaded in L. rewrite Ei, om_get_set in L. rewrite Ed.
        destruct (N.eqb_spec h' h) as [Y|Y]; apply w_dbg0; [unfold loaded; rewrite Y, G; discriminate|exact L].
      * intros h' im'. rewrite Ei, om_get_set, Er. destruct (N.eqb_spec h' h) as [->|]; [|apply w_rt0].
        intros X Y. injection X as <-. eapply w_rt0; eauto.
    + destruct C. constructor; auto.
      * intros h. rewrite entered_quiet by exact Q. apply w_once0.
      * intros h im' G' St. rewrite entered_quiet by exact Q. destruct (c_img0 _ _ G') as (im & G & E1 & _). rewrite E1 in St. exact (w_fresh0 _ _ G St).
      * intros h L. apply c_dbg0; [exact L|]. apply w_dbg0. unfold loaded in *.
        destruct (om_get (i_imgs s') h) as [im'|] eqn:G'; [|congruence]. destruct (c_img0 _ _ G') as (im & -> & _). discriminate.
      * intros h im' G' K. apply c_rt0; [unfold loaded; rewrite G'; discriminate|]. destruct (c_img0 _ _ G') as (im & G & _ & E2).
        rewrite E2 in K. exact (w_rt0 _ _ G K).
Qed.
