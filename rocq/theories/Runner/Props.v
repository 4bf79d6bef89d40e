(** The runner of on-platform tests. *)
From Verif Require Import Base.Prelude Runner.Model Runner.Spec.
From Coq Require Import Lia ZifyBool ZifyNat ZifyN.
Local Open Scope N_scope.

Lemma text_eqb_eq : forall a b, text_eqb a b = true <-> a = b.
Proof.
  induction a as [|x a IH]; intros [|y b]; cbn [text_eqb]; split; intros H; try reflexivity; try discriminate.
  - apply andb_prop in H. destruct H as [H K]. apply N.eqb_eq in H. apply IH in K. congruence.
  - assert (x = y) by congruence. assert (a = b) by congruence. subst. rewrite N.eqb_refl. apply IH. reflexivity.
Qed.
Lemma prefix_iff : forall p s, is_prefix p s = true <-> exists post, s = p ++ post.
Proof.
  induction p as [|x p IH]; intros s; cbn [is_prefix]; split; intros H.
  - exists s. reflexivity.
  - reflexivity.
  - destruct s as [|y s]; [discriminate|]. apply andb_prop in H. destruct H as [H K]. apply N.eqb_eq in H. apply IH in K. destruct K as (post & ->). subst y. exists post. reflexivity.
  - destruct H as (post & ->). cbn [app]. rewrite N.eqb_refl. apply IH. exists post. reflexivity.
Qed.
Lemma contains_iff : forall p s, contains p s = true <-> exists pre post, s = pre ++ p ++ post.
Proof.
  intros p. induction s as [|y s IH]; cbn [contains]; rewrite Bool.orb_true_iff, prefix_iff; split; intros H.
  - destruct H as [(post & E) | H]; [|discriminate]. exists [], post. exact E.
  - destruct H as ([|a pre] & post & E); [left; exists post; exact E | discriminate].
  - destruct H as [(post & E) | H]; [exists [], post; exact E|]. apply IH in H. destruct H as (pre & post & ->). exists (y :: pre), post. reflexivity.
  - destruct H as ([|a pre] & post & E); [left; exists post; exact E|]. right. apply IH. exists pre, post. cbn [app] in E. congruence.
Qed.
(** C95: the tests selected are those not marked to be skipped whose name has one of the filters in it, or any name without filters. *)
Theorem c95_selected : forall S (t : test_case S) filters, should_run t filters = true <-> selected filters t.
Proof.
  intros S t filters. unfold should_run, selected. destruct filters as [|f fs].
  - rewrite Bool.negb_true_iff. intuition.
  - rewrite Bool.andb_true_iff, Bool.negb_true_iff, existsb_exists. split.
    + intros ((x & X & C) & K). split; [exact K|]. right. apply contains_iff in C. destruct C as (pre & post & E). exists x, pre, post. split; assumption.
    + intros (K & [D | (x & pre & post & X & E)]); [discriminate|]. split; [|exact K]. exists x. split; [exact X|]. apply contains_iff. exists pre, post. exact E.
Qed.
(** C95: more filters select more, except the first. *)
Theorem c95_filters : forall S (t : test_case S) f g fs, selected (f :: fs) t -> selected (f :: g :: fs) t.
Proof. intros S t f g fs (K & [D | (x & pre & post & X & E)]); [discriminate|]. split; [exact K|]. right. exists x, pre, post. split; [|exact E]. cbn [In] in *. intuition. Qed.
(** C95: a test succeeds exactly if it went as expected. *)
Theorem c95_verdict : forall S (t : test_case S) r, verdict t r = Ok tt <-> as_expected t r.
Proof.
  intros S t r. unfold verdict, as_expected. destruct (should_fail t), r as [[|]|m|]; split; intros H; try discriminate; try (destruct H as [[A B]|[A (x & B & C)]]; discriminate).
  - right. split; [reflexivity|]. exists m. split; [reflexivity|]. destruct (fail_msg t) as [x|]; [|left; reflexivity]. destruct (text_eqb m x) eqn:E; [|discriminate]. apply text_eqb_eq in E. subst. right. reflexivity.
  - destruct H as [[A B]|[A (x & B & C)]]; [discriminate|]. assert (x = m) by congruence. subst x. destruct C as [-> | ->]; [reflexivity|]. assert (E : text_eqb m m = true) by (apply text_eqb_eq; reflexivity). rewrite E. reflexivity.
  - left. split; reflexivity.
  - reflexivity.
Qed.

(** No test panics, whatever it is run with. *)
Definition calm {S} (l : list (test_case S)) : Prop := forall t level s, In t l -> fst (fst (body t level s)) <> Panic.
Lemma verdict_calm : forall S (t : test_case S) r, r <> Panic -> verdict t r <> Panic.
Proof. intros S t r H. unfold verdict. destruct (should_fail t), r as [[|]|m|]; try discriminate; try congruence. destruct (fail_msg t); [destruct (text_eqb _ _)|]; discriminate. Qed.

Lemma loop_slow : forall S filters (l : list (test_case S)) bad level s, calm l ->
  exists o, loop false false filters l bad level s = (if bad || existsb (fun p => match verdict (fst p) (snd p) with Ok _ => false | _ => true end) (outcomes (filter (fun t => should_run t filters) l) s) then Err tt else Ok tt, o, level, leaves (filter (fun t => should_run t filters) l) s).
Proof.
  intros S filters l. induction l as [|t l IH]; intros bad level s C; cbn [loop filter]; [eexists; cbn [outcomes leaves existsb]; rewrite Bool.orb_false_r; reflexivity|].
  assert (C' : calm l) by (intros x lv y I; apply C; right; exact I). destruct (should_run t filters) eqn:R; cbn [negb].
  - cbn [outcomes leaves]. unfold run. pose proof (C t 0 s (or_introl eq_refl)) as P. destruct (body t 0 s) as [[r lv] s'] eqn:B. cbn [fst snd] in *. pose proof (verdict_calm S t r P) as V.
    assert (LV : match r with Panic => lv | _ => level end = level) by (destruct r; [reflexivity | reflexivity | congruence]). rewrite LV. cbn [existsb fst snd]. destruct (verdict t r) as [u|e|] eqn:W; [| |congruence].
    + destruct (IH bad level s' C') as (o & E). rewrite E. eexists. cbn [orb]. reflexivity.
    + destruct (IH true level s' C') as (o & E). rewrite E. eexists. cbn [orb]. rewrite Bool.orb_true_r. reflexivity.
  - destruct (IH bad level s C') as (o & E). rewrite E. eexists. reflexivity.
Qed.
(** C95: every selected test is run, once, in order and in the storage the ones before it left; the run succeeds exactly if all went as expected; and the log's
    level is as it was, whatever the tests did to it. *)
Theorem c95_run : forall S filters (tests : list (test_case S)) level s, calm tests ->
  let chosen := filter (fun t => should_run t filters) tests in
  exists r o, runner false false filters tests level s = (r, o, level, leaves chosen s) /\ (r = Ok tt <-> Forall (fun p => as_expected (fst p) (snd p)) (outcomes chosen s)) /\ (r = Ok tt \/ r = Err tt).
Proof.
  intros S filters tests level s C chosen. unfold runner. destruct (loop_slow S filters tests false level s C) as (o & E). rewrite E. fold chosen. eexists. eexists. split; [reflexivity|]. cbn [orb].
  destruct (existsb _ (outcomes chosen s)) eqn:X.
  - split; [|right; reflexivity]. split; [discriminate|]. intros F. apply existsb_exists in X. destruct X as (p & I & N). rewrite Forall_forall in F. specialize (F p I). apply c95_verdict in F. rewrite F in N. discriminate.
  - split; [|left; reflexivity]. split; [|reflexivity]. intros _. apply Forall_forall. intros p I. apply c95_verdict. destruct (verdict (fst p) (snd p)) as [[]|e|] eqn:V; [reflexivity | |];
      (assert (K : existsb (fun p => match verdict (fst p) (snd p) with Ok _ => false | _ => true end) (outcomes chosen s) = true) by (apply existsb_exists; exists p; split; [exact I | rewrite V; reflexivity]); congruence).
Qed.
Lemma loop_fast : forall S filters (l : list (test_case S)) level s, calm l ->
  let chosen := filter (fun t => should_run t filters) l in
  (exists o, loop false true filters l false level s = (Ok tt, o, level, leaves chosen s) /\ Forall (fun p => as_expected (fst p) (snd p)) (outcomes chosen s))
  \/ (exists o a t b, chosen = a ++ t :: b /\ loop false true filters l false level s = (Err tt, o, level, leaves (a ++ [t]) s) /\ Forall (fun p => as_expected (fst p) (snd p)) (outcomes a s)
      /\ ~ as_expected t (fst (fst (body t 0 (leaves a s))))).
Proof.
  intros S filters l. induction l as [|t l IH]; intros level s C; cbn [loop filter]; [left; eexists; split; [reflexivity | constructor]|].
  assert (C' : calm l) by (intros x lv y I; apply C; right; exact I). destruct (should_run t filters) eqn:R; cbn [negb].
  - cbn [outcomes leaves]. unfold run. pose proof (C t 0 s (or_introl eq_refl)) as P. destruct (body t 0 s) as [[r lv] s'] eqn:B. cbn [fst snd] in *. pose proof (verdict_calm S t r P) as V.
    assert (LV : match r with Panic => lv | _ => level end = level) by (destruct r; [reflexivity | reflexivity | congruence]). rewrite LV. destruct (verdict t r) as [[]|e|] eqn:W; [| |congruence].
    + apply c95_verdict in W. destruct (IH level s' C') as [(o & E & F) | (o & a & x & b & Q & E & F & G)]; rewrite E.
      * left. eexists. split; [reflexivity|]. constructor; [exact W | exact F].
      * right. eexists. exists (t :: a), x, b. split; [cbn [app]; congruence|]. cbn [app leaves outcomes]. rewrite B. cbn [snd]. split; [reflexivity|]. split; [constructor; [exact W | exact F] | exact G].
    + right. eexists. exists [], t, (filter (fun t => should_run t filters) l). split; [reflexivity|]. cbn [app leaves outcomes]. rewrite B. cbn [fst snd]. split; [reflexivity|]. split; [constructor|]. intros K. apply c95_verdict in K. congruence.
  - destruct (IH level s C') as [(o & E & F) | (o & a & x & b & Q & E & F & G)]; rewrite E; [left; eexists; split; [reflexivity | exact F] | right; eexists; exists a, x, b; split; [exact Q|]; split; [reflexivity|]; split; assumption].
Qed.
(** C95: told to fail fast, it stops behind the first selected test that did not go as expected, and if there is none it succeeds. *)
Theorem c95_fast : forall S filters (tests : list (test_case S)) level s, calm tests ->
  let chosen := filter (fun t => should_run t filters) tests in
  (exists o, runner false true filters tests level s = (Ok tt, o, level, leaves chosen s) /\ Forall (fun p => as_expected (fst p) (snd p)) (outcomes chosen s))
  \/ (exists o a t b, chosen = a ++ t :: b /\ runner false true filters tests level s = (Err tt, o, level, leaves (a ++ [t]) s) /\ Forall (fun p => as_expected (fst p) (snd p)) (outcomes a s)
      /\ ~ as_expected t (fst (fst (body t 0 (leaves a s))))).
Proof.
  intros S filters tests level s C chosen. unfold runner. destruct (loop_fast S filters tests level s C) as [(o & E & F) | (o & a & x & b & Q & E & F & G)]; rewrite E.
  - left. eexists. split; [reflexivity | exact F].
  - right. eexists. exists a, x, b. split; [exact Q|]. split; [reflexivity|]. split; assumption.
Qed.
Lemma loop_lines : forall S filters (l : list (test_case S)) bad level s, calm l -> 3 <= level -> exists r lv s' o, loop false false filters l bad level s = (r, o, lv, s') /\ told filters l s o.
Proof.
  intros S filters l. induction l as [|t l IH]; intros bad level s C L; cbn [loop]; [eexists; eexists; eexists; eexists; split; [reflexivity | constructor]|].
  assert (C' : calm l) by (intros x lv y I; apply C; right; exact I). assert (W3 : forall x, say level 3 x = [x]) by (intros x; unfold say; destruct (3 <=? level) eqn:Q; [reflexivity | lia]). assert (W1 : forall x, say level 1 x = [x]) by (intros x; unfold say; destruct (1 <=? level) eqn:Q; [reflexivity | lia]).
  destruct (should_run t filters) eqn:R; cbn [negb].
  - apply c95_selected in R. unfold run. pose proof (C t 0 s (or_introl eq_refl)) as P. destruct (body t 0 s) as [[r lv] s'] eqn:B. cbn [fst snd] in *. pose proof (verdict_calm S t r P) as V.
    assert (LV : match r with Panic => lv | _ => level end = level) by (destruct r; [reflexivity | reflexivity | congruence]). rewrite LV. destruct (verdict t r) as [[]|e|] eqn:W; [| |congruence].
    + destruct (IH bad level s' C' L) as (r' & lv' & s2 & o & E & T). rewrite E, W3. eexists. eexists. eexists. eexists. split; [reflexivity|]. cbn [app]. apply c95_verdict in W. apply told_good; rewrite ?B; assumption.
    + destruct (IH true level s' C' L) as (r' & lv' & s2 & o & E & T). rewrite E, W1. eexists. eexists. eexists. eexists. split; [reflexivity|]. cbn [app]. apply told_failed; rewrite ?B; [exact R | | | exact T]; cbn [fst].
      * intros K. apply c95_verdict in K. congruence.
      * intros m ->. unfold verdict in W. destruct (should_fail t); [destruct (fail_msg t) as [x|]; [destruct (text_eqb m x)|]|]; congruence.
  - destruct (IH bad level s C' L) as (r' & lv' & s2 & o & E & T). rewrite E, W3. eexists. eexists. eexists. eexists. split; [reflexivity|]. cbn [app]. apply told_skipped; [|exact T]. rewrite <- c95_selected, R. discriminate.
Qed.
(** C95: with the log at information or below, the number of tests is told and, of each test in order, whether it was skipped, went as expected or not. *)
Theorem c95_lines : forall S filters (tests : list (test_case S)) level s, calm tests -> 3 <= level -> exists r lv s' o, runner false false filters tests level s = (r, Count (N.of_nat (length tests)) :: o, lv, s') /\ told filters tests s o.
Proof.
  intros S filters tests level s C L. unfold runner. destruct (loop_lines S filters tests false level s C L) as (r & lv & s' & o & E & T). rewrite E. eexists. eexists. eexists. exists o.
  assert (W : forall x n, say level (if n =? 0 then 2 else 3) x = [x]) by (intros x n; unfold say; destruct (_ <=? level) eqn:Q; [reflexivity | destruct (n =? 0); lia]). rewrite W. split; [reflexivity | exact T].
Qed.
(** Not so: that success means a test was run, or that as many were as was announced.  With a filter that fits none, all are announced, none run, and it succeeds. *)
Theorem c95_none_refuted : forall S filters (tests : list (test_case S)) level s, 3 <= level -> (forall t, In t tests -> ~ selected filters t) ->
  exists o, runner false false filters tests level s = (Ok tt, Count (N.of_nat (length tests)) :: o, level, s).
Proof.
  intros S filters tests level s L H. unfold runner.
  assert (E : exists o, loop false false filters tests false level s = (Ok tt, o, level, s)).
  { induction tests as [|t l IH]; cbn [loop]; [eexists; reflexivity|]. destruct (should_run t filters) eqn:R; [apply c95_selected in R; destruct (H t (or_introl eq_refl) R)|]. cbn [negb]. destruct IH as (o & E); [intros x I; apply H; right; exact I|]. rewrite E. eexists. reflexivity. }
  destruct E as (o & E). rewrite E. exists o. unfold say. destruct (_ <=? level) eqn:Q; [reflexivity | destruct (N.of_nat (length tests) =? 0); lia].
Qed.
(** Not so in debug mode: that the log is as it was.  A test that turns it off stays without effect on the result but hides what comes behind it. *)
Theorem c95_debug_refuted : exists tests : list (test_case unit), calm tests /\ runner true false [] tests 3 tt = (Err tt, [Count 2], 0, tt).
Proof.
  exists [Test [1] false false None (fun _ s => (Ok true, 0, s)); Test [2] false false None (fun l s => (Err [9], l, s))]. split; [|reflexivity]. intros t level s I. cbn [In] in I. destruct I as [<- | [<- | []]]; discriminate.
Qed.
(** C95: a test whose parameters are not there is not run, and fails even if it should fail. *)
Theorem c95_params : forall S (init : S -> S) (valid : S -> bool) f (t : test_case S) debug level s, body t = function_test init valid f -> valid (init s) = false -> run debug t level s = (Err NO_PARAMS, level, init s).
Proof. intros S init valid f t debug level s B V. unfold run. rewrite B. unfold function_test. rewrite V. cbn [negb]. unfold verdict. destruct debug, (should_fail t); reflexivity. Qed.

(** ** Cases *)

Definition demo : list (test_case N) :=
  [Test [97; 98] false false None (fun _ s => (Ok true, 5, s + 1)); Test [98; 99] false true (Some [7]) (fun _ s => (Err [7], 0, s * 2)); Test [99] true false None (fun l s => (Err [8], l, s)); Test [98] false true None (fun l s => (Ok true, l, s + 5))].
Example demo_calm : calm demo.
Proof. intros t level s I. cbn [demo In] in I. destruct I as [<- | [<- | [<- | [<- | []]]]]; discriminate. Qed.
Example demo_run : runner false false [[98]] demo 3 10 = (Err tt, [Count 4; Good [97; 98]; Good [98; 99]; Skipped [99]; Failed [98] PASSED], 3, 27).
Proof. reflexivity. Qed.

Print Assumptions c95_selected.
Print Assumptions c95_filters.
Print Assumptions c95_verdict.
Print Assumptions c95_run.
Print Assumptions c95_fast.
Print Assumptions c95_lines.
Print Assumptions c95_none_refuted.
Print Assumptions c95_debug_refuted.
Print Assumptions c95_params.
