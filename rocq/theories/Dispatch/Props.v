(** C38, C39: the driver dispatcher. *)
From Verif Require Import Base.Prelude Base.Bytes Depex.Model Depex.Spec Depex.Proofs Dispatch.Model Dispatch.Spec Dispatch.Proofs Dispatch.Main Dispatch.Live.
Local Open Scope nat_scope.

Lemma session_ok : forall o fuel ps l, holds_after [] 0 (world0 ps) (session o fuel ps l).
Proof.
  intros o fuel ps l. unfold session. apply acts_ok; [|apply world0_ok|apply Nat.le_0_l]. intros fr w I. now apply core_dispatcher_ok.
Qed.

(** C38: whatever the volumes, images and notifications do, and however far
    the history has come (even into a panic), no driver was started twice. *)
Theorem C38_each_driver_once : forall o fuel ps l, NoDup (started (w_events (snd (session o fuel ps l)))).
Proof. intros o fuel ps l. destruct (session_ok o fuel ps l) as (I & _). apply i_nodup in I. apply nodup_app_r in I. exact I. Qed.

(** C38: a driver that was started was gone through in a pass, and that pass
    went through groups: a driver whose dependency was met then, with those
    that asked to be BEFORE it directly before and those AFTER it directly
    after. *)
Theorem C38_only_when_met : forall o fuel ps l p id, let evs := w_events (snd (session o fuel ps l)) in
  In (EvStart p id) evs ->
  In id (tried p evs) /\ exists groups, prefix (tried p evs) (concat (map members groups)) /\ Forall (group_ok evs p) groups.
Proof.
  intros o fuel ps l p id evs H. destruct (session_ok o fuel ps l) as (I & _). destruct (i_just _ _ I p id H) as (T & _). split; [exact T|].
  apply (i_order _ _ I). pose proof (i_passes _ _ I) as F. rewrite Forall_forall in F. exact (F _ H).
Qed.

(** C38: and the pass started them in the order it went through them. *)
Theorem C38_start_order : forall o fuel ps l p, let evs := w_events (snd (session o fuel ps l)) in sublist (started_in p evs) (tried p evs).
Proof. intros o fuel ps l p evs. destruct (session_ok o fuel ps l) as (I & _). apply (i_sub _ _ I). Qed.

(** C38: a driver is only started if loading it succeeded, or it failed
    security and a trust request for its file was accepted. *)
Theorem C38_only_when_trusted : forall o fuel ps l p id, let evs := w_events (snd (session o fuel ps l)) in In (EvStart p id) evs -> cleared evs id.
Proof. intros o fuel ps l p id evs H. destruct (session_ok o fuel ps l) as (I & _). exact (proj2 (i_just _ _ I p id H)). Qed.

(** C38: a driver that failed security still waits, or was started (after a
    trust request, see above); it is not lost. *)
Theorem C38_deferred_waits : forall o fuel ps l u w id, session o fuel ps l = (Done u, w) ->
  In (EvLoad id (Loaded SViolation)) (w_events w) -> waits w id \/ In id (started (w_events w)).
Proof.
  intros o fuel ps l u w id E H. destruct (session_ok o fuel ps l) as (_ & _ & K). rewrite E in K. cbn [fst snd] in K.
  destruct (K u eq_refl (proj2 (world0_ok ps)) id H) as [X|X]; [left|now right]. rewrite app_nil_r in X. unfold keys in X. apply in_map_iff in X. destruct X as (d & X & D).
  unfold waits, held. apply in_map_iff. exists d. split; [congruence|exact D].
Qed.

(** C38: the drivers are told apart: a number stands for one file. *)
Theorem C38_one_file_each : forall o fuel ps l id fv file dx fv' file' dx', let evs := w_events (snd (session o fuel ps l)) in
  In (EvFound id fv file dx) evs -> In (EvFound id fv' file' dx') evs -> fv = fv' /\ file = file' /\ dx = dx'.
Proof. intros o fuel ps l id fv file dx fv' file' dx' evs. destruct (session_ok o fuel ps l) as (I & _). apply found_unique. exact (i_found _ _ I). Qed.

(** C38: offering a volume again adds nothing. *)
Theorem C38_volume_once : forall w h c l, In h (w_processed w) -> add_fv_handles w ((h, c) :: l) = add_fv_handles w l.
Proof.
  intros w h c l H. cbn [add_fv_handles]. assert (E : existsb (N.eqb h) (w_processed w) = true); [|now rewrite E].
  apply existsb_exists. exists h. split; [exact H|apply N.eqb_refl].
Qed.

(** C39: if neither images nor notifications bring new volumes, and
    notifications do not dispatch, the dispatcher returns from any state: as
    many passes and nested calls as it holds drivers and volume images, and
    one, are enough. *)
Theorem C39_terminates : forall o w something,
  (forall evs a, In a (o_notify o evs) -> match a with Volumes _ | Dispatch => False | _ => True end) ->
  (forall evs a, In a (o_image o evs) -> match a with Volumes _ => False | _ => True end) ->
  forall fuel, length (held w) + length (w_images w) < fuel -> exists r w', core_dispatcher o fuel something w = (Done r, w').
Proof.
  intros o w something CN CI fuel L. destruct (core_dispatcher_ends o) with (fuel := fuel) (something := something) (w := w) as (r & w' & E & _).
  - intros evs. apply Forall_forall. intros a. apply CN.
  - intros evs. apply Forall_forall. intros a. apply CI.
  - unfold size, pool. unfold held in L. rewrite map_length in L. exact L.
  - exists r, w'. exact E.
Qed.

(** C39: with no notifications, when the dispatcher returns after any history,
    each driver it still holds either is blocked with the protocols there are
    now, or failed security.  Missing for the whole of C39: a driver AFTER one
    that is itself AFTER another is left although its target ran, see below. *)
Theorem C39_nothing_left_partial : forall o fuel ps l w something r w', (forall evs, o_notify o evs = []) ->
  session o fuel ps l = (Done tt, w) -> core_dispatcher o fuel something w = (Done r, w') -> r <> Err DAlreadyStarted ->
  forall id, waits w' id -> blocked w' id \/ In (EvLoad id (Loaded SViolation)) (w_events w').
Proof.
  intros o fuel ps l w something r w' Q E H NA. eapply core_dispatcher_last; try eassumption. destruct (session_ok o fuel ps l) as (I & _). rewrite E in I. exact I.
Qed.

(** ** Cases *)
Definition gA : bytes := repeat 0xa1%N 16.
Definition gB : bytes := repeat 0xb2%N 16.
Definition gC : bytes := repeat 0xc3%N 16.
Definition gD : bytes := repeat 0xd4%N 16.
Definition gE : bytes := repeat 0xe5%N 16.
Definition gP : bytes := repeat 0x77%N 16.
Definition yes : option bytes := Some (depex_bytes ETrue ++ []).
Definition needs (g : bytes) : option bytes := Some (depex_bytes (EProto g) ++ []).
Definition after (g : bytes) : option bytes := Some (1%N :: g ++ [8%N]).
Definition before (g : bytes) : option bytes := Some (0%N :: g ++ [8%N]).

(** Driver 0 needs [gP]; 1 is AFTER 2, 3 is BEFORE 2; 2 publishes [gP]; 4
    has no depex. *)
Definition o1 : oracle := Oracle (fun evs => match evs with EvStart _ 2 :: _ => [Publish gP] | _ => [] end) (fun _ => []) (fun _ => Loaded SSuccess) (fun _ => true) (fun _ => true).
Definition v1 : list action := [Volumes [(7%N, Some [FDriver gA (needs gP) true; FDriver gB (after gC) true; FDriver gC yes true; FDriver gD (before gC) true; FDriver gE None true])]; Dispatch].
Example C38_order : let evs := w_events (snd (session o1 9 [] v1)) in rev (started evs) = [3; 2; 1; 0] /\ tried 0 evs = [3; 2; 1] /\ tried 1 evs = [0] /\ held (snd (session o1 9 [] v1)) = [4].
Proof. vm_compute. repeat split. Qed.
Example C38_depexes_say : says (needs gP) (DExpr (EProto gP)) /\ says (after gC) (DAfter gC) /\ says (before gC) (DBefore gC) /\ says yes (DExpr ETrue) /\ says None DArch.
Proof. repeat split; constructor; reflexivity || exact Logic.I. Qed.

(** All architectural protocols there: driver 4 runs too. *)
Example C38_arch : rev (started (w_events (snd (session o1 9 arch_protocols v1)))) = [3; 2; 1; 4; 0].
Proof. vm_compute. reflexivity. Qed.

(** Deferred, then trusted, then started without being loaded again. *)
Definition o2 : oracle := Oracle (fun _ => []) (fun _ => []) (fun _ => Loaded SViolation) (fun _ => true) (fun _ => true).
Example C38_trusted : let s := session o2 9 [] [Volumes [(7%N, Some [FDriver gA yes true])]; Dispatch; Dispatch; Trust 7 gA; Dispatch] in
  fst s = Done tt /\ started (w_events (snd s)) = [0] /\ length (filter (fun e => match e with EvLoad _ _ => true | _ => false end) (w_events (snd s))) = 1.
Proof. vm_compute. repeat split. Qed.
(** Before the trust request it waits. *)
Example C38_waiting : let s := session o2 9 [] [Volumes [(7%N, Some [FDriver gA yes true])]; Dispatch; Dispatch] in held (snd s) = [0] /\ started (w_events (snd s)) = [].
Proof. vm_compute. repeat split. Qed.

(** C38, C39: what does not hold.  A driver AFTER another that fails security
    leaves the list that trust requests look at: the request is refused, and
    the driver does not run. *)
Definition o3 : oracle := Oracle (fun _ => []) (fun _ => []) (fun evs => match evs with EvTry _ 1 :: _ => Loaded SViolation | _ => Loaded SSuccess end) (fun _ => true) (fun _ => true).
Theorem C38_trusting_associated_refuted : exists o fuel ps l id fv file g,
  let s := session o fuel ps l in let w := snd s in
  fst s = Done tt /\ In (EvFound id fv file (after g)) (w_events w) /\ waits w id /\ In (EvLoad id (Loaded SViolation)) (w_events w) /\
  w_events (core_trust w fv file) = EvTrust fv file false :: w_events w /\
  (let w' := snd (core_dispatcher o fuel false (core_trust w fv file)) in waits w' id /\ ~ In id (started (w_events w'))).
Proof.
  exists o3, 9, [], [Volumes [(7%N, Some [FDriver gA yes true; FDriver gB (after gA) true])]; Dispatch], 1, 7%N, gB, gA.
  vm_compute. repeat split; auto 10. intros [X|[]]; discriminate.
Qed.

(** C39: A AFTER B, B AFTER C: when C runs B runs after it, but A is left,
    and stays however often the dispatcher is called. *)
Definition chain : list action := [Volumes [(7%N, Some [FDriver gA (after gB) true; FDriver gB (after gC) true; FDriver gC yes true])]; Dispatch].
Definition o5 : oracle := Oracle (fun _ => []) (fun _ => []) (fun _ => Loaded SSuccess) (fun _ => true) (fun _ => true).
Lemma acts_app : forall nested a b w, acts nested (a ++ b) w = and_then (acts nested a w) (fun _ w => acts nested b w).
Proof.
  intros nested. induction a as [|x a IH]; intros b w; [reflexivity|]. cbn [app acts]. destruct x; rewrite ?IH; try reflexivity.
  - destruct (add_fv_handles w l) as [[u| |] w1]; cbn [and_then]; auto.
  - destruct (nested w) as [[u| |] w1]; cbn [and_then]; auto.
Qed.
Lemma chain_still : forall f k w, w_executing w = false -> w_pending w = [] -> w_before w = [] -> w_images w = [] ->
  let s := acts (core_dispatcher o5 (S f) false) (repeat Dispatch k) w in fst s = Done tt /\ w_after (snd s) = w_after w /\ started (w_events (snd s)) = started (w_events w) /\ incl (w_events w) (w_events (snd s)).
Proof.
  intros f. induction k as [|k IH]; intros w X P B I; [repeat split; auto; apply incl_refl|]. destruct w as [ex arch pe im be af pr ps evs nx pa]. cbn in X, P, B, I. subst ex pe be im.
  cbn [repeat acts core_dispatcher w_executing]. unfold dispatch. cbn [w_executing]. unfold yield, plan. cbn [o5 o_notify acts and_then w_protocols w_arch w_pending w_before w_after sort_out line_up
    w_events w_pass w_executing w_images w_processed w_next run_all install_images set_images]. cbn [fst snd].
  match goal with |- context [acts _ (repeat Dispatch k) ?v] => specialize (IH v eq_refl eq_refl eq_refl eq_refl); set (x := v) in * end.
  cbv zeta in IH. destruct IH as (H1 & H2 & H3 & H4). split; [exact H1|]. split; [exact H2|]. split; [exact H3|]. intros e E. apply H4. right. right. exact E.
Qed.
Theorem C39_chain_refuted : exists o fuel ps l, forall k, let s := session o fuel ps (l ++ repeat Dispatch k) in let w := snd s in
  fst s = Done tt /\ In (EvFound 0 7%N gA (after gB)) (w_events w) /\ In (EvFound 1 7%N gB (after gC)) (w_events w) /\
  started (w_events w) = [1; 2] /\ waits w 0 /\ ~ In 0 (started (w_events w)).
Proof.
  exists o5, 9, [], chain. intros k s w.
  assert (E : session o5 9 [] (chain ++ repeat Dispatch k) = acts (core_dispatcher o5 9 false) (repeat Dispatch k) (snd (session o5 9 [] chain))).
  { unfold session. rewrite acts_app. assert (D : fst (acts (core_dispatcher o5 9 false) chain (world0 [])) = Done tt) by (vm_compute; reflexivity).
    destruct (acts (core_dispatcher o5 9 false) chain (world0 [])) as (a, b). cbn [fst] in D. subst a. reflexivity. }
  destruct (chain_still 8 k (snd (session o5 9 [] chain))) as (H1 & H2 & H3 & H4); [vm_compute; reflexivity|vm_compute; reflexivity|vm_compute; reflexivity|vm_compute; reflexivity|]. subst w s. rewrite E.
  assert (F0 : In (EvFound 0 7%N gA (after gB)) (w_events (snd (session o5 9 [] chain)))) by (vm_compute; repeat (first [left; reflexivity|right])).
  assert (F1 : In (EvFound 1 7%N gB (after gC)) (w_events (snd (session o5 9 [] chain)))) by (vm_compute; repeat (first [left; reflexivity|right])).
  set (z := acts _ _ _) in *. clearbody z. split; [exact H1|]. split; [exact (H4 _ F0)|]. split; [exact (H4 _ F1)|]. rewrite H3. split; [vm_compute; reflexivity|]. split.
  - unfold waits, held. rewrite H2, !map_app. apply in_or_app. right. apply in_or_app. right. vm_compute. auto.
  - vm_compute. intros [X|[X|[]]]; discriminate.
Qed.

(** C39: an image that asks for a dispatch while one is going on is not told
    ALREADY_STARTED: drivers are started inside. *)
Definition o4 : oracle := Oracle (fun evs => match evs with EvStart _ 0 :: _ => [Publish gP; Dispatch] | _ => [] end) (fun _ => []) (fun _ => Loaded SSuccess) (fun _ => true) (fun _ => true).
Theorem C39_reentrant_refuted : exists o fuel ps l w, session o fuel ps l = (Done tt, w) /\
  exists a b c d, rev (w_events w) = a ++ EvStart 0 0 :: b ++ EvStart 1 1 :: c ++ EvReturn (Ok tt) :: d /\ In (EvReturn (Ok tt)) d /\ length l = 2 /\ In Dispatch l.
Proof.
  exists o4, 9, [], [Volumes [(7%N, Some [FDriver gA yes true; FDriver gB (needs gP) true])]; Dispatch]. eexists. split; [vm_compute; reflexivity|].
  eexists [_; _; _; _; _], [_; _; _], [_], [_; _]. split; [vm_compute; reflexivity|]. split; [right; left; reflexivity|]. split; [reflexivity|right; left; reflexivity].
Qed.
(** And a notification that asks for one never comes to an end. *)
Theorem C39_dispatching_notification_refuted : exists o w, (forall evs, o_notify o evs = [Dispatch]) /\ forall fuel something, fst (core_dispatcher o fuel something w) = OutOfFuel.
Proof.
  set (o := Oracle (fun _ => []) (fun _ => [Dispatch]) (fun _ => LoadFailed) (fun _ => true) (fun _ => true)). exists o, (world0 []). split; [reflexivity|].
  induction fuel as [|f IH]; intros something; [reflexivity|]. cbn [core_dispatcher]. change (w_executing (world0 [])) with false. unfold dispatch. change (w_executing (world0 [])) with false.
  unfold yield at 1. change (o_notify o (w_events (world0 []))) with [Dispatch]. cbn [acts]. specialize (IH false). destruct (core_dispatcher o f false (world0 [])) as [[x| |] w1]; cbn [fst] in IH; try discriminate.
  reflexivity.
Qed.

Example C39_terminates_case : exists r w', core_dispatcher o1 7 false (snd (session o1 0 [] [hd Dispatch v1])) = (Done r, w').
Proof. apply C39_terminates; [intros evs a []|intros evs a H|vm_compute; lia]. cbn in H. destruct evs as [|[] ?]; try destruct H. destruct id as [|[|[|]]]; cbn in H; try destruct H. subst. exact Logic.I. destruct H. Qed.
Definition left0 : world := snd (session o1 9 [] [hd Dispatch v1]).
Definition left1 : world := snd (core_dispatcher o1 9 false left0).
Example C39_left_case : waits left1 4 /\ blocked left1 4.
Proof.
  assert (E0 : session o1 9 [] [hd Dispatch v1] = (Done tt, left0)) by (vm_compute; reflexivity).
  assert (E1 : core_dispatcher o1 9 false left0 = (Done (Ok tt), left1)) by (vm_compute; reflexivity).
  assert (W : waits left1 4) by (vm_compute; auto). split; [exact W|].
  assert (L : forallb (fun e => match e with EvLoad 4 _ => false | _ => true end) (w_events left1) = true) by (vm_compute; reflexivity).
  assert (NA : Ok tt <> Err (E := derr) DAlreadyStarted) by discriminate.
  destruct (C39_nothing_left_partial o1 9 [] _ left0 false (Ok tt) left1 (fun _ => eq_refl) E0 E1 NA 4 W) as [B|X]; [exact B|exfalso].
  rewrite forallb_forall in L. specialize (L _ X). cbn in L. discriminate L.
Qed.

Print Assumptions C38_each_driver_once.
Print Assumptions C38_only_when_met.
Print Assumptions C38_start_order.
Print Assumptions C38_only_when_trusted.
Print Assumptions C38_deferred_waits.
Print Assumptions C38_one_file_each.
Print Assumptions C38_volume_once.
Print Assumptions C38_trusting_associated_refuted.
Print Assumptions C39_terminates.
Print Assumptions C39_nothing_left_partial.
Print Assumptions C39_chain_refuted.
Print Assumptions C39_reentrant_refuted.
Print Assumptions C39_dispatching_notification_refuted.
