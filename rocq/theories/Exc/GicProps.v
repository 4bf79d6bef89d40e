(** C80: hardware interrupts reach the registered handlers (AArch64). *)
From Verif Require Import Base.Prelude Exc.GicModel Exc.GicSpec.
From Coq Require Import ZifyBool ZifyNat ZifyN.
Local Open Scope N_scope.

Definition agrees (s : st) (w : world) : Prop := forall n, n < 32 ->
  s_handlers s n = handler (w n) /\ N.testbit (g_enable (s_gic s) 0) n = on (w n) /\ g_active (s_gic s) n = busy (w n).

Lemma private_id : forall num n, n < 32 -> source_to_intid num n = Ok n.
Proof.
  intros num n Hn. unfold source_to_intid. replace (two32 <=? n) with false by (unfold two32; lia). destruct (N.ltb_spec n 16); [reflexivity|].
  replace (n <? 32) with true by lia. f_equal. lia.
Qed.

Lemma land_bit : forall w n, negb (N.land w (N.shiftl 1 n) =? 0) = N.testbit w n.
Proof.
  intros w n. rewrite N.shiftl_1_l. destruct (N.testbit w n) eqn:B.
  - destruct (N.eqb_spec (N.land w (2 ^ n)) 0) as [E|E]; [|reflexivity]. exfalso.
    assert (N.testbit (N.land w (2 ^ n)) n = true) as T by (rewrite N.land_spec, B, N.pow2_bits_true; reflexivity). rewrite E, N.bits_0 in T. discriminate.
  - replace (N.land w (2 ^ n)) with 0; [reflexivity|]. symmetry. apply N.bits_inj_0. intro k. rewrite N.land_spec, N.pow2_bits_eqb.
    destruct (N.eqb_spec n k) as [<-|]; [rewrite B; reflexivity|apply andb_false_r].
Qed.

Lemma enable_bits : forall g n v k, n < 32 -> k < 32 ->
  N.testbit (g_enable (enable_interrupt g n v) 0) k = if k =? n then v else N.testbit (g_enable g 0) k.
Proof.
  intros g n v k Hn Hk. unfold enable_interrupt; cbn [g_enable]. rewrite (N.div_small n 32), (N.mod_small n 32) by assumption. unfold set. rewrite N.eqb_refl, N.shiftl_1_l.
  destruct v; [rewrite N.lor_spec|rewrite N.ldiff_spec]; rewrite N.pow2_bits_eqb, (N.eqb_sym n k); destruct (k =? n).
  - apply orb_true_r. - apply orb_false_r. - apply andb_false_r. - apply andb_true_r.
Qed.

Lemma but_same : forall w n x, but w n x n = x.
Proof. intros. unfold but. destruct (N.eq_dec n n); [reflexivity|contradiction]. Qed.
Lemma but_other : forall w n x k, k <> n -> but w n x k = w k.
Proof. intros. unfold but. destruct (N.eq_dec k n); [contradiction|reflexivity]. Qed.

Ltac pw n := let k := fresh "k" in let Hk := fresh "Hk" in intros k Hk; destruct (N.eq_dec k n) as [->|?];
  [rewrite ?but_same|rewrite ?but_other by assumption]; cbn [handler on busy s_handlers s_gic g_enable g_active with_gic set_active]; rewrite ?enable_bits by assumption;
  unfold set; cbn [s_handlers s_gic g_enable g_active enable_interrupt];
  (rewrite ?N.eqb_refl || idtac); repeat match goal with H : k <> n |- _ => apply N.eqb_neq in H; rewrite ?H end.

Lemma call_ref : forall num locked s w o, 32 <= num -> agrees s w -> private_op o -> (locked = true -> handler_op o) ->
  exists s', call num locked s o = Some (s', snd (ref_call w o)) /\ agrees s' (fst (ref_call w o)).
Proof.
  intros num locked s w o Hnum G P HO. destruct o as [n h|n|n|n|n|n|n e]; cbn [private_op] in P; try contradiction;
    try (destruct (G n P) as (A & B & C)); cbn [call].
  - destruct locked; [destruct (proj2 (HO eq_refl))|]. unfold register_source. replace (num <=? n) with false by lia. cbn [ref_call]. rewrite A.
    destruct h as [h|], (handler (w n)) as [h0|] eqn:Hh; cbn [fst snd].
    + eexists; split; [reflexivity|exact G].
    + unfold enable_source, plain. rewrite private_id by assumption. eexists; split; [reflexivity|]. pw n; auto; apply G; assumption.
    + unfold enable_source, plain. rewrite private_id by assumption. eexists; split; [reflexivity|]. pw n; auto; apply G; assumption.
    + eexists; split; [reflexivity|exact G].
  - unfold enable_source, plain. rewrite private_id by assumption. eexists; split; [reflexivity|]. cbn [ref_call fst snd]. pw n; auto; apply G; assumption.
  - unfold enable_source, plain. rewrite private_id by assumption. eexists; split; [reflexivity|]. cbn [ref_call fst snd]. pw n; auto; apply G; assumption.
  - exists s. unfold get_state. rewrite private_id by assumption. replace (n <? 32) with true by lia. rewrite land_bit, N.mod_small, B by assumption. split; [reflexivity|exact G].
  - unfold end_of_interrupt, plain. rewrite private_id by assumption. eexists; split; [reflexivity|]. cbn [ref_call fst snd]. pw n; auto; apply G; assumption.
Qed.

Lemma calls_ref : forall num l s w, 32 <= num -> agrees s w -> Forall handler_op l ->
  exists s', calls num true s l = Some (s', snd (ref_calls w l)) /\ agrees s' (fst (ref_calls w l)).
Proof.
  induction l as [|o l IH]; intros s w Hnum G F; cbn [calls ref_calls].
  - exists s. auto.
  - inversion F as [|? ? Ho Fl]; subst. destruct (call_ref num true s w o Hnum G (proj1 Ho) (fun _ => Ho)) as (s1 & C & G1). rewrite C.
    destruct (ref_call w o) as [w1 a]. cbn [fst snd] in *. destruct (IH s1 w1 Hnum G1 Fl) as (s2 & C2 & G2). rewrite C2.
    destruct (ref_calls w1 l) as [w2 log]. cbn [fst snd] in *. exists s2. auto.
Qed.

(** Private sources: every history, with handlers that do anything but register, gives the answers and the calls of handlers of the reference, and stops the
    system where the reference does.  Missing from the property: shared sources (SPIs), trigger types, handlers that register; see the refutations. *)
Theorem c80_private_partial : forall num body cfg l, 32 <= num -> (forall h, Forall handler_op (body h)) -> Forall private_step l ->
  option_map snd (run num body (start cfg) l) = ref_run body quiet l.
Proof.
  intros num body cfg l Hnum HB. assert (G : agrees (start cfg) quiet) by (intros n Hn; repeat split).
  revert G. generalize (start cfg) as s, quiet as w. induction l as [|x l IH]; intros s w G F; [reflexivity|].
  inversion F as [|? ? Hx Fl]; subst. cbn [run ref_run]. destruct x as [o|n]; cbn [private_step] in Hx; cbn [act].
  - cbn [calls]. destruct (call_ref num false s w o Hnum G Hx ltac:(discriminate)) as (s1 & C & G1). rewrite C.
    destruct (ref_call w o) as [w1 a]. cbn [fst snd] in *. rewrite <- (IH s1 w1 G1 Fl). destruct (run num body s1 l) as [[s2 log]|]; reflexivity.
  - destruct (G n Hx) as (A & B & C). unfold enabled. rewrite N.div_small, N.mod_small, B, C by assumption.
    destruct (on (w n) && negb (busy (w n))) eqn:E.
    + unfold handle_interrupt. replace (num <=? n) with false by lia. cbn [s_handlers with_gic]. rewrite A. destruct (handler (w n)) as [h|] eqn:Hh; [|reflexivity].
      assert (G1 : agrees (with_gic s (set_active (s_gic s) n true)) (but w n (Source (Some h) (on (w n)) true))).
      { pw n; [rewrite A; auto|apply G; assumption]. }
      destruct (calls_ref num (body h) _ _ Hnum G1 (HB h)) as (s2 & C2 & G2). rewrite C2. destruct (ref_calls _ (body h)) as [w2 log]. cbn [fst snd] in *.
      rewrite <- (IH s2 w2 G2 Fl). destruct (run num body s2 l) as [[s3 log3]|]; reflexivity.
    + rewrite <- (IH s w G Fl). destruct (run num body s l) as [[s3 log3]|]; reflexivity.
Qed.

Lemma spi_id : forall num n, 32 <= n -> n + 32 <= num -> num < two32 -> source_to_intid num n = Ok (n + 32).
Proof.
  intros num n Hn Hm H32. unfold source_to_intid. replace (two32 <=? n) with false by lia. replace (n <? 16) with false by lia. replace (n <? 32) with false by lia.
  replace (n - 16 + 16 + 32) with (n + 32) by lia. replace (num <? n + 32) with false by lia. reflexivity.
Qed.

Lemma enabled_one : forall n id, N.testbit (set (fun _ => 0) (n / 32) (N.lor 0 (N.shiftl 1 (n mod 32))) (id / 32)) (id mod 32) = (id =? n).
Proof.
  intros n id. unfold set. rewrite N.lor_0_l, N.shiftl_1_l. destruct (N.eqb_spec (id / 32) (n / 32)) as [E|E].
  - rewrite N.pow2_bits_eqb. pose proof (N.div_mod id 32 ltac:(lia)). pose proof (N.div_mod n 32 ltac:(lia)). lia.
  - rewrite N.bits_0. symmetry. apply N.eqb_neq. intros ->. apply E. reflexivity.
Qed.

(** A shared source: the registration succeeds, but the interrupt of the source is not delivered to its handler; the interrupt 32 places on is enabled
    instead, and stops the system. *)
Theorem c80_shared_refuted : forall num body cfg n h, 32 <= n -> n + 32 < num -> num < two32 ->
  option_map snd (run num body (start cfg) [Call (Register n (Some h)); Signal n]) = Some [Answered Success] /\
  run num body (start cfg) [Call (Register n (Some h)); Signal (n + 32)] = None.
Proof.
  intros num body cfg n h Hn Hm H32.
  assert (R : call num false (start cfg) (Register n (Some h)) =
    Some (St (set (fun _ => None) n (Some h)) (enable_interrupt (s_gic (start cfg)) (n + 32) true), Success)).
  { cbn [call]. unfold register_source. replace (num <=? n) with false by lia. cbn [s_handlers start]. unfold enable_source, plain. rewrite spi_id by lia. reflexivity. }
  cbn [run act]. cbn [calls]. rewrite R. cbn [s_gic]. unfold enabled, enable_interrupt, start; cbn [g_enable s_gic]. rewrite !enabled_one. rewrite N.eqb_refl.
  replace (n =? n + 32) with false by lia. split; [reflexivity|]. cbn. unfold handle_interrupt. replace (num <=? n + 32) with false by lia.
  cbn. unfold set. replace (n + 32 =? n) with false by lia. reflexivity.
Qed.

(** A shared source that was enabled reads as disabled. *)
Theorem c80_state_refuted : forall num body cfg n, 32 <= n -> n + 32 <= num -> num < two32 ->
  option_map snd (run num body (start cfg) [Call (Enable n); Call (GetState n)]) = Some [Answered Success; Answered (State false)].
Proof.
  intros num body cfg n Hn Hm H32. cbn [run act calls call]. unfold enable_source, plain. rewrite spi_id by lia. cbn [with_gic s_gic start]. unfold get_state.
  rewrite spi_id by lia. rewrite land_bit. replace (n + 32 <? 32) with false by lia. unfold enable_interrupt, with_gic, start; cbn [g_enable s_gic s_handlers g_config g_active]. rewrite enabled_one.
  replace (n =? n + 32) with false by lia. reflexivity.
Qed.

(** Registration of one of the last sources below [num] fails, and leaves the handler behind. *)
Theorem c80_failed_refuted : forall num body cfg n h, 32 <= n -> n < num -> num < n + 32 -> num < two32 ->
  option_map snd (run num body (start cfg) [Call (Register n (Some h)); Call (Register n (Some h))]) =
    Some [Answered (Failed InvalidParameter); Answered (Failed AlreadyStarted)].
Proof.
  intros num body cfg n h Hn Hm Hl H32. cbn [run act calls call]. unfold register_source at 1. replace (num <=? n) with false by lia. cbn [s_handlers start].
  assert (E : source_to_intid num n = Err InvalidParameter).
  { unfold source_to_intid. replace (two32 <=? n) with false by lia. replace (n <? 16) with false by lia. replace (n <? 32) with false by lia.
    replace (num <? n - 16 + 16 + 32) with true by lia. reflexivity. }
  unfold enable_source, plain. rewrite E. unfold register_source. replace (num <=? n) with false by lia. cbn. unfold set. rewrite N.eqb_refl. reflexivity.
Qed.

(** The last 32 interrupts of the controller (it has [num] shared ones, so the last is [num + 31]) cannot be registered. *)
Theorem c80_last_refuted : forall num body s n h, num <= n -> n <= num + 31 ->
  run num body s [Call (Register n h)] = Some (s, [Answered (Failed InvalidParameter)]).
Proof. intros num body s n h Hn _. cbn. unfold register_source. replace (num <=? n) with true by lia. reflexivity. Qed.

(** The trigger type of a private source that was made level-triggered reads as edge-triggered. *)
Theorem c80_trigger_refuted : forall num body n, n < 32 ->
  option_map snd (run num body (start (fun _ => 0)) [Call (SetTrigger n false); Call (GetTrigger n)]) = Some [Answered Success; Answered (Edge true)].
Proof.
  intros num body n Hn. cbn [run act calls call]. unfold set_trigger_type, plain. rewrite private_id by assumption. cbn [with_gic s_gic start]. unfold get_trigger_type.
  rewrite private_id by assumption. unfold set_trigger, with_gic, start; cbn [g_enable s_gic s_handlers g_config g_active]. unfold set. rewrite N.eqb_refl, N.ldiff_0_l. reflexivity.
Qed.

(** A handler that registers or removes a handler stops the system. *)
Theorem c80_reentrant_refuted : forall num cfg n h m o, 32 <= num -> n < 32 ->
  run num (fun _ => [Register m o]) (start cfg) [Call (Register n (Some h)); Signal n] = None.
Proof.
  intros num cfg n h m o Hnum Hn. cbn [run act calls call]. unfold register_source at 1. replace (num <=? n) with false by lia. cbn [s_handlers start].
  unfold enable_source at 1, plain. rewrite private_id by assumption. cbn [s_gic with_gic]. unfold enabled, enable_interrupt, start; cbn [g_enable s_gic].
  rewrite enabled_one, N.eqb_refl. cbn. unfold handle_interrupt. replace (num <=? n) with false by lia. cbn. unfold set. rewrite N.eqb_refl. reflexivity.
Qed.

(** The interrupt [num] can be enabled, but is then taken and never ended, so it comes only once. *)
Theorem c80_end_refuted : forall num body cfg, 64 <= num -> num < two32 ->
  exists s, run num body (start cfg) [Call (Enable (num - 32)); Signal num] = Some (s, [Answered Success]) /\ g_active (s_gic s) num = true.
Proof.
  intros num body cfg Hn H32. cbn [run act calls call]. unfold enable_source, plain. rewrite spi_id by lia. replace (num - 32 + 32) with num by lia.
  cbn [s_gic with_gic]. unfold enabled, enable_interrupt, start; cbn [g_enable s_gic]. rewrite enabled_one, N.eqb_refl. cbn. unfold handle_interrupt.
  replace (num <=? num) with true by lia. eexists. split; [reflexivity|]. cbn. unfold set. rewrite N.eqb_refl. reflexivity.
Qed.

(** The timer (PPI 30) with a handler that ends the interrupt and asks for the state. *)
Example c80_case :
  let body := fun h => if h =? 7 then [EndOf 30; GetState 30] else [] in
  let l := [Call (Register 30 (Some 7)); Signal 30; Signal 29; Call (Disable 30); Signal 30; Call (Enable 30); Signal 30; Call (Register 30 None); Signal 30] in
  (forall h, Forall handler_op (body h)) /\ Forall private_step l /\
  ref_run body quiet l = Some [Answered Success; Invoked 30 7; Answered Success; Answered (State true); Answered Success; Answered Success;
    Invoked 30 7; Answered Success; Answered (State true); Answered Success] /\
  option_map snd (run 64 body (start (fun _ => 0)) l) = ref_run body quiet l.
Proof.
  cbv zeta. split; [|split; [|split]].
  - intro h. destruct (h =? 7); repeat constructor.
  - repeat constructor.
  - reflexivity.
  - reflexivity.
Qed.

Print Assumptions c80_private_partial.
Print Assumptions c80_shared_refuted.
Print Assumptions c80_state_refuted.
Print Assumptions c80_failed_refuted.
Print Assumptions c80_last_refuted.
Print Assumptions c80_trigger_refuted.
Print Assumptions c80_reentrant_refuted.
Print Assumptions c80_end_refuted.
