(** Recording performance; the component's start; memory types. *)
From Verif Require Import Base.Prelude Probe.Model Probe.Spec.
From Coq Require Import Lia ZifyBool ZifyNat ZifyN.
Local Open Scope N_scope.

Lemma mask_bit : forall mask b, (N.land mask (2 ^ b) =? 0) = negb (N.testbit mask b).
Proof.
  intros mask b. destruct (N.testbit mask b) eqn:T; cbn [negb].
  - apply N.eqb_neq. intros E. assert (N.testbit (N.land mask (2 ^ b)) b = true) by (rewrite N.land_spec, T, N.pow2_bits_true; reflexivity). rewrite E, N.bits_0 in H. discriminate.
  - apply N.eqb_eq. apply N.bits_inj. intros i. rewrite N.land_spec, N.bits_0. destruct (N.eq_dec i b) as [-> | N]; [rewrite T; reflexivity|]. rewrite N.pow2_bits_false by congruence. apply Bool.andb_false_r.
Qed.
(** C94: a call whose string has no zero byte calls the protocol once if the configuration wants it, and not at all otherwise; with the identifier EDK II has for
    it, whom it is about, the controller or the GUID of the event, and the string. *)
Theorem c94_call : forall mask p, (forall s, given p = Some s -> ~ In 0 s) -> exists ms leak, call mask p = Ok (ms, leak) /\ (wanted mask p = false -> ms = []) /\
  (wanted mask p = true -> exists m, ms = [m] /\ m_caller m = who p /\ m_address m = controller p /\ m_guid m = event_guid p
    /\ match edk_id p with
       | Some id => m_id m = id /\ m_attr m = PerfEntry /\ m_string m = given p /\ m_time m = 0
       | None => match p with
                 | Begin _ t mo time id => m_attr m = PerfStartEntry /\ m_id m = id /\ m_time m = time /\ m_string m = match t with Some x => Some x | None => mo end
                 | End _ t mo time id => m_attr m = PerfEndEntry /\ m_id m = id /\ m_time m = time /\ m_string m = match t with Some x => Some x | None => mo end
                 | _ => False
                 end
       end).
Proof.
  assert (Z : forall s, ~ In 0 s -> existsb (N.eqb 0) s = false).
  { intros s H. destruct (existsb (N.eqb 0) s) eqn:E; [|reflexivity]. apply existsb_exists in E. destruct E as (x & X & Y). apply N.eqb_eq in Y. subst. contradiction. }
  intros mask p H. unfold call, wanted, config_bit, gated. destruct p; cbn [given] in H;
    change StartImage with (2 ^ 0); change LoadImage with (2 ^ 1); change DriverBindingSupport with (2 ^ 2); change DriverBindingStart with (2 ^ 3); change DriverBindingStop with (2 ^ 4); rewrite ?mask_bit;
    try (match goal with |- context [N.testbit mask ?b] => destruct (N.testbit mask b) end); cbn [negb]; unfold log_perf, span_perf; try rewrite (Z _ (H _ eq_refl));
    (eexists; eexists; split; [reflexivity|]; split; [first [discriminate | intros; reflexivity]|]; first [discriminate | intros _; eexists; split; [reflexivity|]; repeat split; unfold pick; reflexivity]).
Qed.
(** Not so: that any string will do.  One with a zero byte panics, if the call is made at all. *)
Theorem c94_zero_refuted : forall mask p s, given p = Some s -> In 0 s -> call mask p = Panic.
Proof.
  intros mask p s G I. assert (E : existsb (N.eqb 0) s = true) by (apply existsb_exists; exists 0; split; [exact I | reflexivity]).
  destruct p; cbn [given] in G; try discriminate; assert (s0 = s) by congruence; subst s0; cbn [call log_perf]; rewrite E; reflexivity.
Qed.
(** Not so: that recording does not use up memory.  Every string ever given stays allocated. *)
Theorem c94_leak_refuted : forall mask l ms leak, calls mask l = Ok (ms, leak) -> leak = concat (map (fun p => match given p with Some s => [s] | None => [] end) l).
Proof.
  intros mask l. induction l as [|p l IH]; intros ms leak H; cbn [calls] in H; [assert (leak = []) by congruence; subst; reflexivity|].
  destruct (call mask p) as [[m1 k1]|e|] eqn:C; try discriminate. cbn [bind] in H. destruct (calls mask l) as [[m2 k2]|e|]; try discriminate. cbn [bind fst snd] in H. assert (leak = k1 ++ k2) by congruence. subst leak. cbn [map concat]. rewrite (IH _ _ eq_refl). f_equal.
  destruct p; cbn [call given] in *; unfold gated, log_perf, span_perf in C; try (destruct (N.land _ _ =? 0)); try (destruct (existsb _ _); [discriminate|]); congruence.
Qed.
(** C94: the protocol is called in the order of the calls, and only for those wanted. *)
Theorem c94_order : forall mask l ms leak, calls mask l = Ok (ms, leak) -> map m_caller ms = map who (filter (wanted mask) l).
Proof.
  intros mask l. induction l as [|p l IH]; intros ms leak H; cbn [calls] in H; [assert (ms = []) by congruence; subst; reflexivity|].
  destruct (call mask p) as [[m1 k1]|e|] eqn:C; try discriminate. cbn [bind] in H. destruct (calls mask l) as [[m2 k2]|e|]; try discriminate. cbn [bind fst snd] in H. assert (ms = m1 ++ m2) by congruence. subst ms. rewrite map_app, (IH _ _ eq_refl). cbn [filter].
  assert (G : forall s, given p = Some s -> ~ In 0 s) by (intros s G I; rewrite (c94_zero_refuted mask p s G I) in C; discriminate). destruct (c94_call mask p G) as (ms & lk & E & W0 & W1). assert (ms = m1) by congruence. subst ms.
  destruct (wanted mask p); [destruct (W1 eq_refl) as (m & -> & M & _); cbn [map app]; rewrite M; reflexivity | rewrite (W0 eq_refl); reflexivity].
Qed.

(** ** The component *)

(** C94: when the component is enabled, its state is there, the services it needs succeed (that of the MM event only if there are regions) and no HOB tells of
    regions without one of the user's, all is set up. *)
Theorem c94_entry_partial : forall ok hobs regions, ok ReportEvent = true -> ok Protocol = true -> ok Property = true -> (forall l, regions = Some l -> In true l /\ ok MmEvent = true) ->
  entry true true ok hobs regions = (true, ReportEvent :: (if hobs then [Records] else []) ++ [Protocol] ++ (match regions with Some _ => [MmEvent] | None => [] end) ++ [Property]).
Proof.
  intros ok hobs regions A B C H. unfold entry. cbn [negb]. destruct regions as [l|]; unfold entry'; rewrite A, B, C; cbn [negb andb]; [|destruct hobs; reflexivity]. destruct (H l eq_refl) as [I M]. assert (E : existsb (fun u => u) l = true) by (apply existsb_exists; exists true; split; [exact I | reflexivity]). rewrite E, M. destruct hobs; reflexivity.
Qed.
(** Not so: that the protocol is there whenever the component is enabled and succeeds.  With HOBs of regions, but none of the user's, nothing is done. *)
Theorem c94_entry_refuted : forall ok hobs l, ~ In true l -> entry true true ok hobs (Some l) = (true, []).
Proof. intros ok hobs l H. unfold entry. cbn [negb]. destruct (existsb (fun u => u) l) eqn:E; [|reflexivity]. apply existsb_exists in E. destruct E as (x & X & ->). contradiction. Qed.
(** C94: disabled, it does nothing. *)
Theorem c94_disabled : forall state ok hobs regions, entry false state ok hobs regions = (true, []).
Proof. reflexivity. Qed.
(** C94: it does not say it succeeded if a service it needs failed: then the report event, the protocol and the property are there, or it had nothing to do. *)
Theorem c94_entry_true : forall enabled state ok hobs regions done, entry enabled state ok hobs regions = (true, done) -> done = [] \/
  (In ReportEvent done /\ In Protocol done /\ In Property done /\ (hobs = true -> In Records done) /\ ok ReportEvent = true /\ ok Protocol = true /\ ok Property = true /\ (In MmEvent done -> ok MmEvent = true)).
Proof.
  intros enabled state ok hobs regions done H. unfold entry in H. destruct enabled; cbn [negb] in H; [|left; congruence]. destruct state; cbn [negb] in H; [|discriminate].
  assert (G : forall mm, entry' ok hobs mm = (true, done) -> In ReportEvent done /\ In Protocol done /\ In Property done /\ (hobs = true -> In Records done) /\ ok ReportEvent = true /\ ok Protocol = true /\ ok Property = true /\ (In MmEvent done -> ok MmEvent = true)).
  { intros mm E. unfold entry' in E. destruct (ok ReportEvent); cbn [negb] in E; [|discriminate]. destruct (ok Protocol); cbn [negb] in E; [|discriminate].
    destruct mm, (ok MmEvent) eqn:M; cbn [andb negb] in E; try discriminate; (destruct (ok Property); cbn [negb] in E; [|discriminate]); destruct hobs; cbn [app] in E; match type of E with (true, ?d) = _ => assert (done = d) by congruence end; subst done; cbn [In]; intuition (congruence || discriminate). }
  destruct regions as [l|]; [destruct (existsb (fun u => u) l); [right; exact (G _ H) | left; congruence] | right; exact (G _ H)].
Qed.

(** ** Memory types *)

(** C94: a memory type is a standard one, an OEM's or an operating system's, or refused; and its number is kept. *)
Theorem c94_memory_types : forall v, v < 2 ^ 32 -> match from_efi v with
  | Ok t => to_efi t = v /\ match t with Standard _ => v < 16 | Oem _ => 0x70000000 <= v <= 0x7FFFFFFF | Os _ => 0x80000000 <= v end
  | Err _ => 16 <= v < 0x70000000
  | Panic => False
  end.
Proof.
  intros v H. unfold from_efi. change (2 ^ 32) with 0x100000000 in H. destruct (v <? 16) eqn:A; [split; [reflexivity | lia]|]. destruct ((0x70000000 <=? v) && (v <=? 0x7FFFFFFF)) eqn:B; [split; [reflexivity | lia]|].
  destruct ((0x80000000 <=? v) && (v <=? 0xFFFFFFFF)) eqn:C; [split; [reflexivity | lia]|]. lia.
Qed.

(** ** Cases *)

Example demo_calls : calls 1 [ImageStartBegin 5; LoadImageBegin 6; FunctionBegin [102] 7; ImageStartEnd 5] = Ok ([Meas 5 None None 0 0 1 PerfEntry; Meas 7 None (Some [102]) 0 0 0x30 PerfEntry; Meas 5 None None 0 0 2 PerfEntry], [[102]]).
Proof. reflexivity. Qed.
Example demo_entry : entry true true (fun _ => true) true (Some [false; true]) = (true, [ReportEvent; Records; Protocol; MmEvent; Property]).
Proof. reflexivity. Qed.

Print Assumptions c94_call.
Print Assumptions c94_zero_refuted.
Print Assumptions c94_leak_refuted.
Print Assumptions c94_order.
Print Assumptions c94_entry_partial.
Print Assumptions c94_entry_refuted.
Print Assumptions c94_disabled.
Print Assumptions c94_entry_true.
Print Assumptions c94_memory_types.
