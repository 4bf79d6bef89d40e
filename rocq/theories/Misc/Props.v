(** C44 (Stall), C45 (ExitBootServices), C49 (SetWatchdogTimer). *)
From Verif Require Import Base.Prelude Misc.Model Misc.Spec.
Local Open Scope N_scope.

(** ** Stall *)
Lemma total_app : forall a b, total (a ++ b) = total a + total b.
Proof. unfold total. induction a as [|x a IH]; intros b; cbn [app fold_right]; [lia|]. rewrite IH. lia. Qed.

Lemma stall_loop_spec : forall fuel ticks waits, ticks / u32_max < N.of_nat fuel ->
  exists ws rest, stall_loop fuel ticks waits = Some (waits ++ ws, rest) /\
    total ws + rest = ticks /\ rest <= u32_max /\ Forall (fun w => w = u32_max) ws.
Proof.
  induction fuel as [|f IH]; intros ticks waits H; [destruct (N.nlt_0_r _ H)|]. cbn [stall_loop].
  destruct (u32_max <? ticks) eqn:E.
  - apply N.ltb_lt in E. destruct (IH (ticks - u32_max) (waits ++ [u32_max])) as (ws & rest & A & B & C & D).
    + assert (X : ticks = (ticks - u32_max) + 1 * u32_max) by lia.
      rewrite X in H. rewrite N.div_add in H by discriminate. rewrite Nat2N.inj_succ in H.
      set (q := (ticks - u32_max) / u32_max) in *. clearbody q. lia.
    + exists (u32_max :: ws), rest. rewrite A, <- app_assoc. cbn [app]. repeat split; auto.
      cbn [total fold_right]. unfold total in B. lia.
  - apply N.ltb_ge in E. exists [], ticks. rewrite app_nil_r. cbn. auto.
Qed.

(** The requested time is divided into metronome waits that add up to the largest whole number of ticks not
    exceeding it; each wait fits the metronome's 32-bit argument and none is zero.  The service only refuses
    while there is no metronome, and it then waits for nothing. *)
Theorem stall_waits : forall period us, period <> 0 -> period < 2 ^ 32 -> us < 2 ^ 64 ->
  exists ws, stall (Some period) us = Ok (SUCCESS, ws) /\
    total ws * period <= us * 10 < (total ws + 1) * period /\
    Forall (fun w => 0 < w <= u32_max) ws.
Proof.
  intros period us P _ _. unfold stall. pose proof P as P0. apply N.eqb_neq in P0. rewrite P0.
  set (t := us * 10 / period).
  destruct (stall_loop_spec (stall_fuel t) t []) as (ws & rest & A & B & C & D).
  { unfold stall_fuel. rewrite Nat2N.inj_succ, N2Nat.id. apply N.lt_succ_diag_r. }
  rewrite A. cbn [app]. eexists. split; [reflexivity|].
  assert (F : Forall (fun w => 0 < w <= u32_max) ws).
  { eapply Forall_impl; [|exact D]. cbn. intros a ->. unfold u32_max. lia. }
  assert (TT : total (if negb (rest =? 0) then ws ++ [rest mod 2 ^ 32] else ws) = t /\
               Forall (fun w => 0 < w <= u32_max) (if negb (rest =? 0) then ws ++ [rest mod 2 ^ 32] else ws)).
  { destruct (rest =? 0) eqn:R; cbn [negb].
    - apply N.eqb_eq in R. split; [lia|exact F].
    - apply N.eqb_neq in R. rewrite N.mod_small by (unfold u32_max in C; lia). rewrite total_app.
      split; [cbn [total fold_right]; lia|]. apply Forall_app. split; [exact F|]. repeat constructor; lia. }
  destruct TT as [-> T2]. split; [|exact T2]. unfold t. pose proof (N.div_mod (us * 10) period P).
  pose proof (N.mod_lt (us * 10) period P). lia.
Qed.

(** The claim "at least the requested time" is false: the tick count is rounded down, so a request shorter than
    one tick does not wait at all. *)
Theorem stall_at_least_refuted : exists period us ws,
  0 < period < 2 ^ 32 /\ us < 2 ^ 64 /\ 0 < us /\
  stall (Some period) us = Ok (SUCCESS, ws) /\ total ws * period < us * 10.
Proof. exists 1000, 99, []. vm_compute. repeat split. Qed.

(** What is true of it: the wait is long enough exactly when the request is a whole number of ticks, and it is
    otherwise short by less than one tick. *)
Theorem stall_at_least_partial : forall period us ws, period <> 0 -> period < 2 ^ 32 -> us < 2 ^ 64 ->
  stall (Some period) us = Ok (SUCCESS, ws) ->
  (us * 10 <= total ws * period <-> (us * 10) mod period = 0) /\ us * 10 - total ws * period < period.
Proof.
  intros period us ws P P1 U E. destruct (stall_waits period us P P1 U) as (ws' & E' & [L1 L2] & _).
  rewrite E in E'. injection E' as <-. split; [|lia]. split; intro H.
  - assert (X : us * 10 = total ws * period) by lia. rewrite X. apply N.mod_mul. exact P.
  - apply N.div_exact in H; [|exact P].
    assert (total ws = us * 10 / period).
    { apply (N.div_unique (us * 10) period (total ws) (us * 10 - total ws * period)); lia. }
    lia.
Qed.

(** A metronome that reports a zero tick period makes Stall panic. *)
Theorem stall_zero_period_panics : forall us, stall (Some 0) us = Panic.
Proof. reflexivity. Qed.

Theorem stall_not_ready : forall us, stall None us = Ok (NOT_READY, []).
Proof. reflexivity. Qed.

(** ** SetWatchdogTimer: the driver is given the timeout in 100 ns units, or the largest representable period
    when that does not fit; the status tells whether it accepted. *)
Theorem watchdog_period : forall accept timeout, timeout < 2 ^ 64 ->
  exists p, set_watchdog_timer (Some accept) timeout = (if accept p then SUCCESS else DEVICE_ERROR, Some p) /\
    p < 2 ^ 64 /\ (timeout * 10000000 < 2 ^ 64 -> p = timeout * 10000000) /\
    (2 ^ 64 <= timeout * 10000000 -> p = 2 ^ 64 - 1).
Proof.
  intros accept timeout H. eexists. split; [reflexivity|]. unfold u64_max, two64. lia.
Qed.
Theorem watchdog_not_ready : forall timeout, set_watchdog_timer None timeout = (NOT_READY, None).
Proof. reflexivity. Qed.

(** ** CalculateCrc32 writes the checksum exactly when it succeeds, and succeeds exactly on non-null, non-empty
    arguments. *)
Theorem crc32_service : forall crc data out_null,
  (fst (calculate_crc32 crc data out_null) = SUCCESS <-> exists b, data = Some b /\ b <> [] /\ out_null = false) /\
  (forall b, data = Some b -> fst (calculate_crc32 crc data out_null) = SUCCESS ->
     snd (calculate_crc32 crc data out_null) = Some (crc b)) /\
  (fst (calculate_crc32 crc data out_null) <> SUCCESS ->
     calculate_crc32 crc data out_null = (INVALID_PARAMETER, None)).
Proof.
  intros crc [b|] out_null; unfold calculate_crc32.
  2:{ cbn [fst snd]. split; [|split]; [split; [discriminate|intros (b & X & _); discriminate X]|discriminate|reflexivity]. }
  destruct b as [|x b]; destruct out_null; cbn [length N.of_nat];
    repeat match goal with |- context [N.pos ?p =? 0] => change (N.pos p =? 0) with false end;
    cbn [N.eqb orb fst snd]; (split; [|split]); try (split; [discriminate|intros (b' & [= <-] & X & Y); congruence]);
    try (intros; congruence); try reflexivity; try (intros; reflexivity).
  - split; [intros _; exists (x :: b); split; [reflexivity|split; [discriminate|reflexivity]]|reflexivity].
Qed.

(** ** ExitBootServices *)

(** One call, from any state, with notification functions that do not re-enter. *)
Lemma exit_once : forall e s r s', quiet e -> exit_boot_services e s = Some (r, s') ->
  x_called s' = true /\
  x_signals s' = x_signals s ++ (if x_called s then [] else [PRE_EBS; BEFORE_EBS]) ++
                 [if fresh_keyb e then EBS else EBS_FAILED] /\
  x_locked s' = fresh_keyb e /\
  (r = SUCCESS <-> fresh_key e) /\
  (fresh_key e -> x_ints s' = false /\ x_services s' = false /\ (e_runtime e = true -> x_runtime s' = true)) /\
  (~ fresh_key e -> x_ints s' = x_ints s /\ x_services s' = x_services s /\ x_runtime s' = x_runtime s).
Proof.
  intros e s r s' Q H. unfold exit_boot_services in H.
  set (s1 := if x_called s then s else set_called (signal e BEFORE_EBS (signal e PRE_EBS s))) in *.
  assert (S1 : x_called s1 = true /\ x_signals s1 = x_signals s ++ (if x_called s then [] else [PRE_EBS; BEFORE_EBS]) /\
               x_ints s1 = x_ints s /\ x_services s1 = x_services s /\ x_runtime s1 = x_runtime s).
  { unfold s1. destruct (x_called s) eqn:C.
    - rewrite app_nil_r. auto.
    - unfold signal. set (sa := log_signal PRE_EBS s).
      destruct (Q PRE_EBS sa) as (A1 & A2 & A3 & A4 & A5 & A6).
      set (sb := log_signal BEFORE_EBS (e_notify e PRE_EBS sa)).
      destruct (Q BEFORE_EBS sb) as (B1 & B2 & B3 & B4 & B5 & B6).
      cbn [set_called x_called x_signals x_ints x_services x_runtime].
      rewrite B3, B4, B5, B6. unfold sb. cbn [log_signal x_called x_signals x_ints x_services x_runtime].
      rewrite A3, A4, A5, A6. unfold sa. cbn [log_signal x_called x_signals x_ints x_services x_runtime].
      rewrite <- app_assoc. auto. }
  clearbody s1. destruct S1 as (C1 & G1 & I1 & V1 & R1).
  set (s3 := set_locked true (if e_timer e then set_timer 0 s1 else s1)) in *.
  assert (S3 : x_called s3 = true /\ x_signals s3 = x_signals s1 /\ x_ints s3 = x_ints s1 /\ x_services s3 = x_services s1 /\
               x_runtime s3 = x_runtime s1 /\ x_locked s3 = true).
  { unfold s3. destruct (e_timer e); cbn; auto 10. }
  clearbody s3. destruct S3 as (C3 & G3 & I3 & V3 & R3 & L3).
  unfold terminate_memory_map, fresh_key, fresh_keyb in *.
  destruct (e_map e) as [k|err|]; cbn [bind] in H; [| |discriminate H].
  - destruct (e_key e =? k) eqn:K.
    + apply N.eqb_eq in K. destruct (e_systable e); [|discriminate H]. injection H as <- <-.
      unfold signal. set (sa := log_signal EBS s3). destruct (Q EBS sa) as (A1 & A2 & A3 & A4 & A5 & A6).
      destruct (e_report e), (e_runtime e);
        cbn [set_runtime set_services set_ints report x_called x_signals x_ints x_services x_runtime x_locked];
        rewrite ?A1, ?A2, ?A3, ?A6; unfold sa;
        cbn [log_signal x_called x_signals x_ints x_services x_runtime x_locked];
        rewrite ?C3, ?G3, ?G1, ?L3, <- ?app_assoc; repeat apply conj; auto; intros; try congruence;
        try (split; intros; congruence); try (repeat apply conj; intros; congruence); exfalso; apply H; congruence.
    + apply N.eqb_neq in K. injection H as <- <-.
      unfold signal. set (sa := log_signal EBS_FAILED (set_locked false s3)).
      destruct (Q EBS_FAILED sa) as (A1 & A2 & A3 & A4 & A5 & A6).
      rewrite ?A1, ?A2, ?A3, ?A4, ?A5, ?A6. unfold sa.
      cbn [set_locked log_signal x_called x_signals x_ints x_services x_runtime x_locked].
      rewrite ?C3, ?G3, ?G1, <- ?app_assoc. repeat apply conj; auto; intros; try congruence;
        try (split; intros; congruence); try (repeat apply conj; intros; congruence).
  - injection H as <- <-.
    unfold signal. set (sa := log_signal EBS_FAILED (set_locked false s3)).
    destruct (Q EBS_FAILED sa) as (A1 & A2 & A3 & A4 & A5 & A6).
    rewrite ?A1, ?A2, ?A3, ?A4, ?A5, ?A6. unfold sa.
    cbn [set_locked log_signal x_called x_signals x_ints x_services x_runtime x_locked].
    rewrite ?C3, ?G3, ?G1, <- ?app_assoc. repeat apply conj; auto; intros; try congruence;
      try (split; intros; congruence); try (repeat apply conj; intros; congruence).
Qed.

Lemma exit_later : forall es s rs s', Forall quiet es -> x_called s = true ->
  exit_calls es s = Some (rs, s') ->
  x_signals s' = x_signals s ++ map (fun e => if fresh_keyb e then EBS else EBS_FAILED) es /\
  Forall2 (fun e r => r = SUCCESS <-> fresh_key e) es rs /\
  x_locked s' = match rev es with e :: _ => fresh_keyb e | [] => x_locked s end.
Proof.
  induction es as [|e es IH]; intros s rs s' Q C H; cbn [exit_calls] in H.
  - injection H as <- <-. rewrite app_nil_r. auto.
  - destruct (exit_boot_services e s) as [[r s1]|] eqn:E; [|discriminate H].
    destruct (exit_calls es s1) as [[rs1 s2]|] eqn:E2; [|discriminate H]. injection H as <- <-.
    inversion Q as [|? ? Q1 Q2]; subst.
    destruct (exit_once e s r s1 Q1 E) as (A1 & A2 & A3 & A4 & _). rewrite C in A2. cbn [app] in A2.
    destruct (IH s1 rs1 s2 Q2 A1 E2) as (B1 & B2 & B3).
    rewrite B1, A2, <- app_assoc. cbn [map app]. repeat split; auto.
    rewrite B3. cbn [rev]. destruct (rev es) as [|x l] eqn:R; cbn [app]; auto.
Qed.

(** Over any sequence of calls (whose notification functions do not re-enter the service): the two "before" groups
    are signalled once, first and in order; each call then signals exactly one group, Exit Boot Services if its
    key is current and the failure group otherwise; it returns success exactly in the first case; and memory
    services are locked exactly when the last call succeeded. *)
Theorem exit_boot_services_sequence : forall es s rs s', booting s -> Forall quiet es -> es <> [] ->
  exit_calls es s = Some (rs, s') ->
  x_signals s' = expected_signals es /\
  Forall2 (fun e r => r = SUCCESS <-> fresh_key e) es rs /\
  (x_locked s' = true <-> exists e es0, es = es0 ++ [e] /\ fresh_key e) /\
  count_group PRE_EBS (x_signals s') = 1%nat /\ count_group BEFORE_EBS (x_signals s') = 1%nat.
Proof.
  intros es s rs s' (B1 & B2 & B3 & B4 & B5 & B6) Q NE H.
  destruct es as [|e es]; [congruence|]. cbn [exit_calls] in H.
  destruct (exit_boot_services e s) as [[r s1]|] eqn:E; [|discriminate H].
  destruct (exit_calls es s1) as [[rs1 s2]|] eqn:E2; [|discriminate H]. injection H as <- <-.
  inversion Q as [|? ? Q1 Q2]; subst.
  destruct (exit_once e s r s1 Q1 E) as (A1 & A2 & A3 & A4 & _). rewrite B1, B3 in A2. cbn [app] in A2.
  destruct (exit_later es s1 rs1 s2 Q2 A1 E2) as (C1 & C2 & C3).
  assert (FK : forall x, fresh_keyb x = true <-> fresh_key x).
  { intro x. unfold fresh_keyb, fresh_key. destruct (e_map x) as [k| |]; try (split; congruence).
    rewrite N.eqb_eq. split; [intros ->; reflexivity|intros [= ->]; reflexivity]. }
  assert (SG : x_signals s2 = expected_signals (e :: es)).
  { rewrite C1, A2. reflexivity. }
  assert (LK : x_locked s2 = match rev (e :: es) with e' :: _ => fresh_keyb e' | [] => false end).
  { rewrite C3. cbn [rev]. destruct (rev es) as [|x l] eqn:R; cbn [app]; [exact A3|reflexivity]. }
  split; [exact SG|]. split; [constructor; assumption|]. split.
  - rewrite LK. destruct (rev (e :: es)) as [|x l] eqn:R.
    + apply (f_equal (@rev xenv)) in R. rewrite rev_involutive in R. discriminate R.
    + assert (EQ : e :: es = rev l ++ [x]) by (rewrite <- (rev_involutive (e :: es)), R; reflexivity).
      rewrite FK. split.
      * intro F. exists x, (rev l). auto.
      * intros (x' & es0 & EQ2 & F). rewrite EQ in EQ2. apply app_inj_tail in EQ2. destruct EQ2 as [_ ->]. exact F.
  - assert (CG : forall g l, (g = PRE_EBS \/ g = BEFORE_EBS) ->
       count_group g (map (fun e => if fresh_keyb e then EBS else EBS_FAILED) l) = 0%nat).
    { intros g l G. induction l as [|x l IH]; [reflexivity|]. cbn [map]. unfold count_group in *. cbn [filter].
      destruct (fresh_keyb x); destruct G as [-> | ->]; exact IH. }
    rewrite SG. unfold expected_signals.
    split; unfold count_group; cbn [app filter length]; f_equal; [apply (CG PRE_EBS)|apply (CG BEFORE_EBS)]; auto.
Qed.

(** A call with a stale key leaves memory services usable and the boot-time state in place, whatever came
    before; a call with the current key locks memory, turns interrupts off and removes boot services. *)
Theorem exit_boot_services_atomic : forall e s r s', quiet e -> exit_boot_services e s = Some (r, s') ->
  (~ fresh_key e -> r <> SUCCESS /\ x_locked s' = false /\ x_ints s' = x_ints s /\ x_services s' = x_services s /\
                    x_runtime s' = x_runtime s) /\
  (fresh_key e -> r = SUCCESS /\ x_locked s' = true /\ x_ints s' = false /\ x_services s' = false /\
                  (e_runtime e = true -> x_runtime s' = true)).
Proof.
  intros e s r s' Q H. destruct (exit_once e s r s' Q H) as (A1 & A2 & A3 & A4 & A5 & A6).
  assert (FK : fresh_keyb e = true <-> fresh_key e).
  { unfold fresh_keyb, fresh_key. destruct (e_map e) as [k| |]; try (split; congruence).
    rewrite N.eqb_eq. split; [intros ->; reflexivity|intros [= ->]; reflexivity]. }
  split; intro F.
  - destruct (A6 F) as (? & ? & ?). split; [tauto|]. split; [|auto]. rewrite A3.
    destruct (fresh_keyb e); [tauto|reflexivity].
  - destruct (A5 F) as (? & ? & ?). split; [tauto|]. split; [|auto]. rewrite A3. tauto.
Qed.

(** The only panics are a missing system table on a successful call, and those of the memory-map computation. *)
Theorem exit_boot_services_panics : forall e s, exit_boot_services e s = None <->
  e_map e = Panic \/ (fresh_key e /\ e_systable e = false).
Proof.
  intros e s. unfold exit_boot_services, terminate_memory_map, fresh_key.
  destruct (e_map e) as [k|err|]; cbn [bind].
  - destruct (e_key e =? k) eqn:K.
    + apply N.eqb_eq in K. subst k. destruct (e_systable e); split; intro H; try discriminate; auto.
      destruct H as [H|[_ H]]; discriminate H.
    + apply N.eqb_neq in K. split; [discriminate|]. intros [H|[H _]]; congruence.
  - split; [discriminate|]. intros [H|[H _]]; discriminate H.
  - split; auto.
Qed.

(** A failed call still leaves the system timer stopped: events and timers do not tick until a driver sets a
    period again. *)
Theorem exit_boot_services_failure_stops_timer_refuted : exists e s s' err,
  quiet e /\ booting s /\ x_timer s <> 0 /\ exit_boot_services e s = Some (ERR err, s') /\ x_timer s' <> x_timer s.
Proof.
  exists (mkenv 5 true true true (Ok 6) true (fun _ s => s)), (mkx false 100000 false true true false [] 0).
  eexists. exists InvalidParameter. split; [intros g s; cbn; auto 10|]. vm_compute. repeat split; discriminate.
Qed.

(** Memory is not locked for good by success: a later call with a stale key unlocks it again. *)
Theorem exit_boot_services_stays_locked_refuted : exists e1 e2 s s' rs,
  quiet e1 /\ quiet e2 /\ booting s /\ exit_calls [e1; e2] s = Some (SUCCESS :: rs, s') /\ x_locked s' = false.
Proof.
  exists (mkenv 5 true true true (Ok 5) true (fun _ s => s)), (mkenv 5 true true true (Ok 6) true (fun _ s => s)),
    (mkx false 100000 false true true false [] 0).
  do 2 eexists. split; [intros g s; cbn; auto 10|]. split; [intros g s; cbn; auto 10|]. vm_compute. repeat split.
Qed.

(** "Exactly once" fails when a notification function of the before-exit group itself calls ExitBootServices: the flag is
    only set after both groups have been signalled. *)
Theorem exit_boot_services_once_reentrant_refuted : exists e s r s', booting s /\
  exit_boot_services e s = Some (r, s') /\ count_group PRE_EBS (x_signals s') = 2%nat.
Proof.
  pose (inner := mkenv 5 true true true (Ok 6) true (fun _ s => s)).
  pose (cb := fun g s => match g with
     | BEFORE_EBS => match exit_boot_services inner s with Some (_, s') => s' | None => s end
     | _ => s end).
  exists (mkenv 5 true true true (Ok 5) true cb), (mkx false 100000 false true true false [] 0).
  do 2 eexists. split; [vm_compute; repeat split|]. vm_compute. repeat split.
Qed.

(** ** Witnesses *)
Example ex_stall : stall (Some 10) 100000000000 = Ok (SUCCESS, repeat u32_max 23 ++ [1215752215]).
Proof. vm_compute. reflexivity. Qed.
Definition ex_env k m := mkenv k true true true (Ok m) true (fun _ s => s).
Definition ex_boot := mkx false 100000 false true true false [] 0.
Example ex_exit : booting ex_boot /\ Forall quiet [ex_env 1 2; ex_env 2 2] /\
  exit_calls [ex_env 1 2; ex_env 2 2] ex_boot =
    Some ([ERR InvalidParameter; SUCCESS], mkx true 0 true false false true [PRE_EBS; BEFORE_EBS; EBS_FAILED; EBS] 1).
Proof.
  split; [vm_compute; repeat split|]. split; [repeat constructor; cbn; auto 10|]. vm_compute. reflexivity.
Qed.
Example ex_watchdog : set_watchdog_timer (Some (fun _ => true)) 300 = (SUCCESS, Some 3000000000).
Proof. vm_compute. reflexivity. Qed.

Print Assumptions stall_waits.
Print Assumptions stall_at_least_refuted.
Print Assumptions stall_at_least_partial.
Print Assumptions stall_zero_period_panics.
Print Assumptions stall_not_ready.
Print Assumptions watchdog_period.
Print Assumptions watchdog_not_ready.
Print Assumptions crc32_service.
Print Assumptions exit_boot_services_sequence.
Print Assumptions exit_boot_services_atomic.
Print Assumptions exit_boot_services_panics.
Print Assumptions exit_boot_services_failure_stops_timer_refuted.
Print Assumptions exit_boot_services_stays_locked_refuted.
Print Assumptions exit_boot_services_once_reentrant_refuted.
