(** The passes of a connect, and what follows from them. *)
From Coq Require Import Sorted Permutation.
From Verif Require Import Base.Prelude Base.Omap Protocol.Model Protocol.Spec Protocol.Proofs Protocol.Services
  Protocol.SvcProofs Connect.Model Connect.Spec.
Local Open Scope N_scope.

(** ** States *)
Lemma perform_reached s ops : reached s -> reached (perform s ops).
Proof. intros H. unfold reached, perform. cbn [c_ps]. apply (calls_hist ops (c_ps s)). exact H. Qed.
Lemma log_reached s e : reached s -> reached (log s e).
Proof. exact (fun H => H). Qed.
Lemma perform_nil s : perform s [] = s.
Proof. destruct s. reflexivity. Qed.

Lemma mem_in x l : mem x l = true <-> In x l.
Proof.
  unfold mem. rewrite existsb_exists. split.
  - intros (y & Hy & E). apply N.eqb_eq in E. subst. exact Hy.
  - intros H. exists x. split; [exact H|apply N.eqb_refl].
Qed.
Lemma without_in seen l x : In x (without seen l) <-> In x l /\ ~ In x seen.
Proof.
  unfold without. rewrite filter_In, negb_true_iff. split; intros [A B]; (split; [exact A|]).
  - intros X. apply mem_in in X. congruence.
  - destruct (mem x seen) eqn:E; [|reflexivity]. apply mem_in in E. contradiction.
Qed.

(** ** Passes *)
Lemma one_pass_spec env c dp cands : forall s st one st' one' s',
  one_pass env s c dp cands st one = (st', one', s') ->
  exists yes evs, st' = st ++ yes /\ c_ev s' = c_ev s ++ evs /\ pass_of c dp cands yes evs /\
    (one' = true <-> one = true \/ Exists start_ok evs) /\ (reached s -> reached s').
Proof.
  induction cands as [|b t IH]; intros s st one st' one' s' H; cbn [one_pass] in H.
  - injection H as <- <- <-. exists [], []. rewrite !app_nil_r. repeat split; auto; try constructor.
    intros [H|H]; [exact H|inversion H].
  - destruct (ce_supported env s b c dp) as [sup ops]. destruct sup.
    + destruct (ce_start env _ b c dp) as [ok ops2].
      apply IH in H. destruct H as (yes & evs & -> & E & P & O & R).
      exists (b :: yes), (ESupported b c dp true :: EStart b c dp ok :: evs).
      split; [rewrite <- app_assoc; reflexivity|]. split.
      { rewrite E. cbn [c_ev log perform]. rewrite <- !app_assoc. reflexivity. }
      split; [constructor; exact P|]. split.
      * rewrite O, orb_true_iff. split.
        -- intros [[A|A]|A]; [left; exact A|right|right].
           ++ right. left. exact A.
           ++ right. right. exact A.
        -- intros [A|A]; [left; left; exact A|]. inversion A as [? ? B|? ? B]; subst; [destruct B|].
           inversion B as [? ? D|? ? D]; subst; [left; right; exact D|right; exact D].
      * intros Hr. apply R. apply log_reached, perform_reached, log_reached, perform_reached, Hr.
    + apply IH in H. destruct H as (yes & evs & -> & E & P & O & R).
      exists yes, (ESupported b c dp false :: evs). split; [reflexivity|]. split.
      { rewrite E. cbn [c_ev log perform]. rewrite <- app_assoc. reflexivity. }
      split; [constructor; exact P|]. split.
      * rewrite O. split; (intros [A|A]; [left; exact A|right]); [right; exact A|].
        inversion A as [? ? B|? ? B]; subst; [destruct B|exact B].
      * intros Hr. apply R. apply log_reached, perform_reached, Hr.
Qed.

Lemma pass_yes_in c dp l yes evs : pass_of c dp l yes evs -> forall b, In b yes -> In b l.
Proof. induction 1; intros x Hx; cbn [In] in *; [exact Hx|right; auto|destruct Hx; [left|right]; auto]. Qed.

Lemma without_len_lt yes l b : In b yes -> In b l -> (length (without yes l) < length l)%nat.
Proof.
  intros Hy. induction l as [|x t IH]; intros Hi; [destruct Hi|].
  assert (Hle : forall u, (length (without yes u) <= length u)%nat).
  { intros u. unfold without. induction u as [|y u IHu]; cbn [filter length]; [lia|]. destruct (negb _); cbn [length]; lia. }
  unfold without in *. cbn [filter length]. destruct (mem x yes) eqn:E; cbn [negb length].
  - specialize (Hle t). lia.
  - destruct Hi as [->|Hi]; [apply mem_in in Hy; congruence|]. specialize (IH Hi). lia.
Qed.

Lemma passes_spec fuel env c dp : forall s cands one r s',
  passes fuel env s c dp cands one = (r, s') ->
  match r with
  | Got one' => exists evs, c_ev s' = c_ev s ++ evs /\ asks c dp cands evs /\
                 (one' = true <-> one = true \/ Exists start_ok evs) /\ (reached s -> reached s')
  | MPanic => False
  | MHang => (fuel <= length cands)%nat
  end.
Proof.
  induction fuel as [|k IH]; intros s cands one r s' H; cbn [passes] in H.
  - injection H as <- <-. lia.
  - destruct (one_pass env s c dp cands [] one) as [[st one1] s1] eqn:E.
    apply one_pass_spec in E. destruct E as (yes & evs & -> & Ee & P & O & R). cbn [app] in H.
    destruct yes as [|b0 yes].
    + injection H as <- <-. exists evs. split; [exact Ee|]. split; [apply asks_end; exact P|]. split; assumption.
    + apply IH in H. destruct r as [one'| |]; [|exact H|].
      * destruct H as (evs' & E' & A' & O' & R'). exists (evs ++ evs'). split; [rewrite E', Ee, <- app_assoc; reflexivity|].
        split; [|split; [|auto]].
        -- eapply asks_more with (yes := b0 :: yes) (l' := without (b0 :: yes) cands); try eassumption.
           ++ discriminate.
           ++ intros b Hb Hin. apply without_in in Hin. tauto.
           ++ intros b Hb. destruct (mem b (b0 :: yes)) eqn:M; [left; apply mem_in; exact M|right].
              apply without_in. split; [exact Hb|]. intros X. apply mem_in in X. congruence.
           ++ eexists. reflexivity.
        -- rewrite O', O, Exists_app. tauto.
      * pose proof (without_len_lt (b0 :: yes) cands b0 (or_introl eq_refl) (pass_yes_in _ _ _ _ _ P b0 (or_introl eq_refl))). lia.
Qed.

(** ** Consequences for the driver calls *)
Lemma pass_asked c dp l yes evs : pass_of c dp l yes evs -> flat_map asked evs = l.
Proof. induction 1; cbn [flat_map asked app]; congruence. Qed.
Lemma pass_started c dp l yes evs : pass_of c dp l yes evs -> flat_map started evs = yes.
Proof. induction 1; cbn [flat_map started app]; congruence. Qed.

Lemma pass_sub c dp l yes evs : pass_of c dp l yes evs -> NoDup l -> NoDup yes.
Proof.
  induction 1 as [|b t yes evs P IH|b ok t yes evs P IH]; intros Hn; [constructor| |]; inversion Hn as [|? ? Ha Hb]; subst; [auto|].
  constructor; [|auto]. intros X. apply Ha. eapply pass_yes_in; eauto.
Qed.

Lemma asks_in c dp l evs : asks c dp l evs -> forall b, In b (flat_map started evs) -> In b l.
Proof.
  induction 1 as [l evs P|l yes evs l' evs' P Hy Hd Hc [f Hf] A IH]; intros b Hb.
  - rewrite (pass_started _ _ _ _ _ P) in Hb. destruct Hb.
  - rewrite flat_map_app, in_app_iff, (pass_started _ _ _ _ _ P) in Hb. destruct Hb as [Hb|Hb].
    + eapply pass_yes_in; eauto.
    + apply IH in Hb. rewrite Hf in Hb. apply filter_In in Hb. apply Hb.
Qed.

Lemma asks_once c dp l evs : asks c dp l evs -> NoDup l -> NoDup (flat_map started evs).
Proof.
  induction 1 as [l evs P|l yes evs l' evs' P Hy Hd Hc [f Hf] A IH]; intros Hn.
  - rewrite (pass_started _ _ _ _ _ P). constructor.
  - rewrite flat_map_app, (pass_started _ _ _ _ _ P).
    assert (N1 : NoDup yes) by (eapply pass_sub; eauto).
    assert (N2 : NoDup (flat_map started evs')) by (apply IH; rewrite Hf; apply NoDup_filter; exact Hn).
    assert (Hdis : forall b, In b yes -> ~ In b (flat_map started evs')).
    { intros b Hb Hs. apply (Hd b Hb). eapply asks_in; eauto. }
    clear - N1 N2 Hdis. induction yes as [|x t IH]; cbn [app]; [exact N2|]. inversion N1; subst.
    constructor; [|apply IH; [assumption|intros b Hb; apply Hdis; right; exact Hb]].
    rewrite in_app_iff. intros [X|X]; [contradiction|]. exact (Hdis x (or_introl eq_refl) X).
Qed.

Lemma asks_first c dp l evs : asks c dp l evs ->
  exists pre post, evs = pre ++ post /\ flat_map asked pre = l.
Proof.
  intros H. inversion H as [? ? P|? yes e1 ? e2 P]; subst.
  - exists evs, []. split; [symmetry; apply app_nil_r|eapply pass_asked; eauto].
  - exists e1, e2. split; [reflexivity|eapply pass_asked; eauto].
Qed.

Lemma pass_shape c dp l yes evs : pass_of c dp l yes evs -> forall pre e post, evs = pre ++ e :: post ->
  match e with
  | ESupported b c' dp' _ => In b l /\ c' = c /\ dp' = dp
  | EStart b c' dp' _ => In b l /\ c' = c /\ dp' = dp /\ exists pre', pre = pre' ++ [ESupported b c dp true]
  | _ => False
  end.
Proof.
  induction 1 as [|b t yes evs P IH|b ok t yes evs P IH]; intros pre e post E.
  - destruct pre; discriminate E.
  - destruct pre as [|p pre]; cbn [app] in E; injection E as Ep E.
    + subst e. cbn. auto.
    + specialize (IH pre e post E). destruct e; try exact IH.
      * destruct IH as (A & B & C). cbn [In]. auto.
      * destruct IH as (A & B & C & pre' & D). split; [right; exact A|]. repeat split; auto.
        exists (p :: pre'). rewrite D. reflexivity.
  - destruct pre as [|p pre]; cbn [app] in E; injection E as Ep E.
    + subst e. cbn. auto.
    + destruct pre as [|p2 pre]; cbn [app] in E; injection E as Ep2 E.
      * subst e p. split; [left; reflexivity|]. repeat split; auto. exists []. reflexivity.
      * specialize (IH pre e post E). destruct e; try exact IH.
        -- destruct IH as (A & B & C). cbn [In]. auto.
        -- destruct IH as (A & B & C & pre' & D). split; [right; exact A|]. repeat split; auto.
           exists (p :: p2 :: pre'). rewrite D. reflexivity.
Qed.

(** Splitting a concatenation at an element. *)
Lemma app_split {A} (a b pre : list A) x post : a ++ b = pre ++ x :: post ->
  (exists post', a = pre ++ x :: post' /\ post = post' ++ b) \/ (exists pre', pre = a ++ pre' /\ b = pre' ++ x :: post).
Proof.
  revert pre. induction a as [|y a IH]; intros pre E; cbn [app] in E.
  - right. exists pre. auto.
  - destruct pre as [|p pre]; cbn [app] in E; injection E as -> E.
    + left. exists a. auto.
    + destruct (IH _ E) as [(post' & -> & ->)|(pre' & -> & ->)]; [left|right]; eexists; split; reflexivity.
Qed.

Lemma asks_shape c dp l evs : asks c dp l evs -> forall pre e post, evs = pre ++ e :: post ->
  match e with
  | ESupported b c' dp' _ => In b l /\ c' = c /\ dp' = dp
  | EStart b c' dp' _ => In b l /\ c' = c /\ dp' = dp /\ exists pre', pre = pre' ++ [ESupported b c dp true]
  | _ => False
  end.
Proof.
  induction 1 as [l evs P|l yes evs l' evs' P Hy Hd Hc [f Hf] A IH]; intros pre e post E.
  - eapply pass_shape; eauto.
  - apply app_split in E. destruct E as [(post' & E & _)|(pre' & -> & E)].
    + eapply pass_shape; eauto.
    + specialize (IH _ _ _ E). assert (S : forall b, In b l' -> In b l) by (intros b; rewrite Hf, filter_In; tauto).
      destruct e; try exact IH.
      * destruct IH as (X & Y). auto.
      * destruct IH as (X & Y & Z & q & ->). repeat split; auto. exists (evs ++ q). rewrite <- app_assoc. reflexivity.
Qed.

Lemma pass_none c dp l evs : pass_of c dp l [] evs -> evs = map (fun b => ESupported b c dp false) l.
Proof.
  remember [] as yes eqn:E. induction 1 as [|b t yes evs P IH|b ok t yes evs P IH]; [reflexivity| |discriminate E].
  cbn [map]. f_equal. auto.
Qed.

(** At the end every candidate that was not started has declined after the last start. *)
Lemma asks_last c dp l evs : asks c dp l evs ->
  exists pre rest, evs = pre ++ map (fun b => ESupported b c dp false) rest /\
    forall b, In b l <-> In b (flat_map started evs) \/ In b rest.
Proof.
  induction 1 as [l evs P|l yes evs l' evs' P Hy Hd Hc [f Hf] A IH].
  - exists [], l. pose proof (pass_none _ _ _ _ P) as E. split; [exact E|]. intros b.
    rewrite (pass_started _ _ _ _ _ P). cbn. tauto.
  - destruct IH as (pre & rest & E & I). exists (evs ++ pre), rest. split; [rewrite <- app_assoc; congruence|].
    intros b. rewrite flat_map_app, in_app_iff, (pass_started _ _ _ _ _ P). split.
    + intros Hb. destruct (Hc b Hb) as [X|X]; [auto|]. apply I in X. tauto.
    + intros Hb. assert (K : In b yes \/ In b l') by (rewrite I; tauto). destruct K as [K|K].
      * eapply pass_yes_in; eauto.
      * rewrite Hf in K. apply filter_In in K. apply K.
Qed.
