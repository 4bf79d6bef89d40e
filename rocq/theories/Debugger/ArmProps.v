(** Registers, resumption, steps and watchpoints on AArch64: what a person who debugs relies on. *)
From Verif Require Import Base.Prelude Base.Bytes Debugger.ArchModel Debugger.ArchSpec Debugger.ArchProofs Debugger.ArmModel Debugger.ArmSpec.
From Coq Require Import Lia ZifyBool ZifyNat ZifyN.
Local Open Scope N_scope.
Ltac Zify.zify_post_hook ::= Z.div_mod_to_equations.

(** ** Registers *)

Lemma a_packet_sent : forall c, a_packet_read c = flat_map (le_bytes 8) (a_described c) ++ le_bytes 4 (a_spsr c mod two32).
Proof.
  intros c. unfold a_packet_read, a_serialize, a_from_context, a_described. cbn [ar_regs ar_sp ar_pc ar_fpcr ar_cpsr]. rewrite !flat_map_app. cbn [flat_map].
  rewrite !app_nil_r, <- !app_assoc. reflexivity.
Qed.
Lemma a_described_length : forall c, actx_ok c -> length (a_described c) = 34%nat.
Proof. intros c (L & _). unfold a_described. rewrite app_length, L. reflexivity. Qed.
(** C84: the client shows every register of the description as it is, and the low half of the saved program status as cpsr. *)
Theorem c84_read : forall c, actx_ok c ->
  length (a_packet_read c) = 276%nat
  /\ (forall i, (i < 34)%nat -> a_shown (a_packet_read c) i = nth i (a_described c) 0)
  /\ a_shown_cpsr (a_packet_read c) = a_spsr c mod two32.
Proof.
  intros c OK. pose proof (a_described_length c OK) as L. destruct OK as (_ & F & _). rewrite a_packet_sent. split; [|split].
  - rewrite app_length, flat8_length, le_bytes_length, L. reflexivity.
  - intros i I. apply (shown_flat (a_described c)); [exact F | rewrite L; exact I].
  - unfold a_shown_cpsr. rewrite <- (app_nil_r (le_bytes 4 _)). apply le_at_app'; [rewrite flat8_length, L; reflexivity|].
    change (256 ^ N.of_nat 4) with two32. apply N.mod_lt. discriminate.
Qed.
(** C84: a packet sets every register it holds to its value, and nothing else; a shorter one is refused and changes nothing. *)
Theorem c84_write : forall c bytes, bytes_ok bytes ->
  ((length bytes < 276)%nat -> a_packet_write c bytes = Err tt)
  /\ ((276 <= length bytes)%nat -> exists c', a_packet_write c bytes = Ok c'
        /\ length (a_x c') = 29%nat
        /\ (forall i, (i < 34)%nat -> nth i (a_described c') 0 = a_shown bytes i)
        /\ a_spsr c' = a_shown_cpsr bytes
        /\ a_esr c' = a_esr c /\ a_far c' = a_far c /\ a_rest c' = a_rest c).
Proof.
  intros c bytes B. unfold a_packet_write, a_deserialize. rewrite read_values_spec. cbn [Nat.eqb orb Nat.mul Nat.sub Nat.add]. split; intros L.
  - destruct (248 <=? length bytes)%nat eqn:E1; [|reflexivity]. cbn [bind].
    unfold read_value at 1. destruct (length bytes <? 248 + 8)%nat eqn:E2; [reflexivity|]. cbn [bind].
    unfold read_value at 1. destruct (length bytes <? 248 + 8 + 8)%nat eqn:E3; [reflexivity|]. cbn [bind].
    unfold read_value at 1. destruct (length bytes <? 248 + 8 + 8 + 8)%nat eqn:E4; [reflexivity|]. cbn [bind].
    unfold read_value at 1. destruct (length bytes <? 248 + 8 + 8 + 8 + 4)%nat eqn:E5; [reflexivity | lia].
  - destruct (248 <=? length bytes)%nat eqn:E1; [|lia]. cbn [bind].
    unfold read_value at 1. destruct (length bytes <? 248 + 8)%nat eqn:E2; [lia|]. cbn [bind].
    unfold read_value at 1. destruct (length bytes <? 248 + 8 + 8)%nat eqn:E3; [lia|]. cbn [bind].
    unfold read_value at 1. destruct (length bytes <? 248 + 8 + 8 + 8)%nat eqn:E4; [lia|]. cbn [bind].
    unfold read_value at 1. destruct (length bytes <? 248 + 8 + 8 + 8 + 4)%nat eqn:E5; [lia|]. cbn [bind].
    eexists. split; [reflexivity|]. split; [reflexivity|]. split; [|repeat split; reflexivity].
    intros i I. unfold a_shown. do 34 (destruct i as [|i]; [reflexivity|]). lia.
Qed.
(** C84: so registers the client sends back as it received them are as they were, if the upper half of the saved program status is zero. *)
Theorem c84_write_back_partial : forall c, actx_ok c -> a_packet_write c (a_packet_read c) = Ok (with_spsr c (a_spsr c mod two32)).
Proof.
  intros c OK. destruct (c84_read c OK) as (L & R & S). pose proof (a_described_length c OK) as DL.
  assert (B : bytes_ok (a_packet_read c)).
  { rewrite a_packet_sent. apply bytes_ok_app. split; [|apply le_bytes_ok]. apply Forall_forall. intros x X. apply in_flat_map in X.
    destruct X as [v [_ X]]. pose proof (le_bytes_ok 8 v) as F. unfold bytes_ok in F. rewrite Forall_forall in F. apply F, X. }
  destruct (c84_write c (a_packet_read c) B) as [_ W]. destruct W as (c' & W & XL & D & SP & E1 & E2 & E3); [lia|]. rewrite W. f_equal.
  destruct OK as (XC & _ & _).
  assert (DE : a_described c' = a_described c).
  { apply (nth_ext _ _ 0 0).
    - unfold a_described. rewrite !app_length, XL, XC. reflexivity.
    - intros i I. unfold a_described in I. rewrite app_length, XL in I. cbn [length] in I. rewrite D by lia. apply R. lia. }
  unfold a_described in DE.
  assert (XE : a_x c' = a_x c).
  { apply (f_equal (firstn 29)) in DE. rewrite !firstn_app, XL, XC in DE. rewrite !firstn_all2 in DE by lia. change (29 - 29)%nat with 0%nat in DE. rewrite !firstn_O, !app_nil_r in DE. rewrite firstn_all2 in DE by lia. exact DE. }
  rewrite XE in DE. apply app_inv_head in DE. rewrite S in SP. clear - DE XE SP E1 E2 E3. destruct c as [q0 q1 q2 q3 q4 q5 q6 q7 q8 q9], c' as [p0 p1 p2 p3 p4 p5 p6 p7 p8 p9]. unfold with_spsr. cbn [a_x a_fp a_lr a_sp a_elr a_spsr a_fpsr a_esr a_far a_rest] in *.
  injection DE as D1 D2 D3 D4 D5. congruence.
Qed.
(** Not so: the upper half of the saved program status.  Whatever register the client changes, it is zero afterwards. *)
Theorem c84_status_refuted : forall c bytes c', a_packet_write c bytes = Ok c' -> bytes_ok bytes -> a_spsr c' < two32.
Proof.
  intros c bytes c' W B. destruct (c84_write c bytes B) as [A C]. destruct (Nat.lt_ge_cases (length bytes) 276) as [L | L]; [rewrite (A L) in W; discriminate|].
  destruct (C L) as (c'' & W' & _ & _ & SP & _). assert (c'' = c') by congruence. subst c''. rewrite SP. unfold a_shown_cpsr, le_at.
  pose proof (le_val_bound (firstn 4 (skipn 272 bytes))) as V. rewrite firstn_length_le in V by (rewrite skipn_length; lia). apply V. clear V.
  unfold bytes_ok in *. rewrite Forall_forall in *. intros x X. apply B.
  assert (In x (skipn 272 bytes)) by (rewrite <- (firstn_skipn 4 (skipn 272 bytes)); apply in_or_app; left; exact X).
  rewrite <- (firstn_skipn 272 bytes). apply in_or_app. right. assumption.
Qed.
(** The register numbers are those of the description, with its sizes. *)
Theorem c84_ids : forall id, a_from_raw_id id =
  if id <? 35 then Some (if id <? 29 then (AGpr id, 8) else nth (N.to_nat (id - 29)) [(AFp, 8); (ALr, 8); (ASp, 8); (AElr, 8); (AFpsr, 8); (ASpsr, 4)] (AFp, 0)) else None.
Proof.
  intros id. unfold a_from_raw_id. destruct (id <=? 28) eqn:E1; destruct (id <? 29) eqn:E2; try lia.
  - destruct (id <? 35) eqn:E3; [reflexivity | lia].
  - destruct (id <? 35) eqn:E3.
    + assert (J : id = 29 \/ id = 30 \/ id = 31 \/ id = 32 \/ id = 33 \/ id = 34) by lia. destruct J as [-> | [-> | [-> | [-> | [-> | ->]]]]]; reflexivity.
    + destruct (id =? 29) eqn:F1; [lia|]. destruct (id =? 30) eqn:F2; [lia|]. destruct (id =? 31) eqn:F3; [lia|]. destruct (id =? 32) eqn:F4; [lia|].
      destruct (id =? 33) eqn:F5; [lia|]. destruct (id =? 34) eqn:F6; [lia | reflexivity].
Qed.

(** ** Resumption *)

Lemma class_eq : forall c, N.land (N.shiftr (a_esr c) 26) 0x3F = class c.
Proof. intros c. unfold class. rewrite N.shiftr_div_pow2. change 0x3F with (N.ones 6). rewrite N.land_ones. reflexivity. Qed.
(** C84: why the program stopped. *)
Theorem c84_reason : forall mdscr c,
  let i := fst (a_process_entry mdscr c) in
  ai_ctx i = c /\ ai_ip i = a_elr c
  /\ ai_type i = (if is_step (class c) then Step else if is_break (class c) then Breakpoint else if is_abort (class c) then AccessViolation (a_far c) else Other (class c)).
Proof.
  intros mdscr c. unfold a_process_entry. rewrite class_eq. unfold is_step, is_break, is_abort. cbn [existsb]. rewrite !Bool.orb_false_r.
  rewrite !Bool.orb_assoc. destruct ((class c =? 50) || (class c =? 51)); [repeat split|].
  destruct ((class c =? 48) || (class c =? 49) || (class c =? 52) || (class c =? 53) || (class c =? 60)); [repeat split|].
  destruct ((class c =? 32) || (class c =? 33) || (class c =? 36) || (class c =? 37)); repeat split.
Qed.
Lemma entry_mdscr : forall mdscr c, snd (a_process_entry mdscr c) = if is_step (class c) then N.ldiff mdscr 1 else mdscr.
Proof.
  intros mdscr c. unfold a_process_entry. rewrite class_eq. unfold is_step.
  destruct ((class c =? 0x32) || (class c =? 0x33)) eqn:E; change ((class c =? 50) || (class c =? 51)) with ((class c =? 0x32) || (class c =? 0x33)) in *; rewrite ?E; [reflexivity|].
  destruct ((class c =? 0x30) || (class c =? 0x31) || (class c =? 0x34) || (class c =? 0x35) || (class c =? 0x3C)); [reflexivity|].
  destruct ((class c =? 0x20) || (class c =? 0x21) || (class c =? 0x24) || (class c =? 0x25)); reflexivity.
Qed.
Lemma ldiff1_idem : forall v, N.ldiff (N.ldiff v 1) 1 = N.ldiff v 1.
Proof. intros v. apply N.bits_inj. intros j. rewrite !N.ldiff_spec. destruct (N.testbit v j), (N.testbit 1 j); reflexivity. Qed.
Lemma entry_mdscr_idem : forall mdscr c, snd (a_process_entry (snd (a_process_entry mdscr c)) c) = snd (a_process_entry mdscr c).
Proof. intros. rewrite !entry_mdscr. destruct (is_step (class c)); [apply ldiff1_idem | reflexivity]. Qed.
Lemma session_fails : forall dbg m c fails s l mdscr, (forall x, In x fails -> x = AStubError) ->
  a_session dbg m mdscr c (fails ++ s :: l) = a_session dbg m mdscr c (s :: l).
Proof.
  intros dbg m c fails s l. induction fails as [|x fails IH]; intros mdscr F; [reflexivity|]. cbn [app]. rewrite (F x (or_introl eq_refl)).
  cbn [a_session]. destruct (a_process_entry mdscr c) as [i d] eqn:E. rewrite IH by (intros y Y; apply F; right; exact Y). cbn [a_session].
  assert (D : d = snd (a_process_entry mdscr c)) by (rewrite E; reflexivity). pose proof (entry_mdscr_idem mdscr c) as ID. rewrite <- D in ID.
  destruct (c84_reason d c) as (R1 & R2 & R3). destruct (c84_reason mdscr c) as (Q1 & Q2 & Q3). rewrite E in Q1, Q2, Q3. cbn [fst] in *.
  destruct (a_process_entry d c) as [i' d']. cbn [fst snd] in *. subst d'. replace i' with i; [reflexivity|]. destruct i, i'. cbn in *. congruence.
Qed.
Lemma bytes_at_brk : forall m a, bytes_at m a 4 = BRK_0 <-> brk_at m a.
Proof.
  intros m a. unfold brk_at, BRK_0. cbn [bytes_at]. replace (a + 1 + 1) with (a + 2) by lia. replace (a + 2 + 1) with (a + 3) by lia. split.
  - intros H. injection H as H1 H2 H3 H4. auto.
  - intros (-> & -> & -> & ->). reflexivity.
Qed.
(** What the user leaves: the context as they changed it; to step, with the step bit set and the debug mask cleared. *)
Definition left_by (f : actx -> actx) (step : bool) (c : actx) : actx :=
  if step then with_spsr (f c) (N.setbit (N.clearbit (a_spsr (f c)) 9) 21) else f c.
(** C84: the program goes on with what the user left, whatever failures of the protocol came before; after a stop at a breakpoint, behind the
    breakpoint instruction if one is there. *)
Theorem c84_resume : forall dbg m mdscr c f step fails l, (forall x, In x fails -> x = AStubError) ->
  let c' := left_by f step c in
  (is_break (class c) = false \/ ~ brk_at m (a_elr c') -> exists d, a_session dbg m mdscr c (fails ++ AGo f step :: l) = Some (Ok (c', d)))
  /\ (is_break (class c) = true -> brk_at m (a_elr c') -> a_elr c' + 4 < two64 ->
        exists d, a_session dbg m mdscr c (fails ++ AGo f step :: l) = Some (Ok (with_elr c' (a_elr c' + 4), d))).
Proof.
  intros dbg m mdscr c f step fails l F c'. rewrite session_fails by exact F. cbn [a_session].
  destruct (c84_reason mdscr c) as (R1 & R2 & R3). destruct (a_process_entry mdscr c) as [i d]. cbn [fst] in *. destruct i as [t p x]. cbn [ai_ctx ai_type ai_ip] in *. subst x p.
  assert (P : exists d', (if step then a_set_single_step d (Axinfo t (a_elr c) (f c)) else (Axinfo t (a_elr c) (f c), d)) = (Axinfo t (a_elr c) c', d')).
  { unfold c', left_by. destruct step; [|exists d; reflexivity]. eexists. unfold a_set_single_step. cbn [ai_ctx ai_type ai_ip]. do 3 f_equal. }
  destruct P as [d' P]. rewrite P.
  assert (TB : t = Breakpoint <-> is_break (class c) = true).
  { rewrite R3. clear. unfold is_step, is_break, is_abort. cbn [existsb]. set (k := class c). split.
    - destruct ((k =? 50) || (k =? 51)); [discriminate|]. destruct ((k =? 48) || ((k =? 49) || ((k =? 52) || ((k =? 53) || ((k =? 60) || false))))); [reflexivity|].
      destruct ((k =? 32) || ((k =? 33) || ((k =? 36) || ((k =? 37) || false)))); discriminate.
    - intros H. destruct ((k =? 50) || (k =? 51)) eqn:E; [lia|]. rewrite H. reflexivity. }
  unfold a_process_exit. cbn [ai_ctx ai_type ai_ip]. split.
  - intros H. exists d'. destruct t; try reflexivity. destruct H as [H | H]; [rewrite (proj1 TB eq_refl) in H; discriminate|].
    destruct (list_eq_dec N.eq_dec (bytes_at m (a_elr c') 4) BRK_0) as [Q|Q]; [|reflexivity]. exfalso. apply H, bytes_at_brk, Q.
  - intros H K U. exists d'. rewrite (proj2 TB H). destruct (list_eq_dec N.eq_dec (bytes_at m (a_elr c') 4) BRK_0) as [Q|Q]; [|exfalso; apply Q, bytes_at_brk, K].
    unfold uadd. destruct (a_elr c' + 4 <? two64) eqn:E; [reflexivity | lia].
Qed.
(** C84: so a BRK #0 of the program is stepped over, and one the debugger has removed gives way to the instruction it replaced. *)
Theorem c84_hardcoded : forall dbg m mdscr c l, is_break (class c) = true -> a_elr c + 4 < two64 ->
  (brk_at m (a_elr c) -> exists d, a_session dbg m mdscr c (AGo (fun x => x) false :: l) = Some (Ok (with_elr c (a_elr c + 4), d)))
  /\ (~ brk_at m (a_elr c) -> exists d, a_session dbg m mdscr c (AGo (fun x => x) false :: l) = Some (Ok (c, d))).
Proof.
  intros dbg m mdscr c l B L. destruct (c84_resume dbg m mdscr c (fun x => x) false [] l ltac:(intros x [])) as [P Q]. cbn [left_by app] in *. split.
  - intros H. apply Q; assumption.
  - intros H. apply P. right. exact H.
Qed.
(** A transport that fails, or a session that never ends, does not resume. *)
Theorem c84_no_resume : forall dbg m mdscr c ss, answer ss = None -> a_session dbg m mdscr c ss = None.
Proof.
  intros dbg m mdscr c ss. revert mdscr. induction ss as [|s ss IH]; intros mdscr A; [reflexivity|]. cbn [a_session answer] in *.
  destruct (a_process_entry mdscr c) as [i d]. destruct s; [discriminate | apply IH, A | reflexivity].
Qed.

Lemma exit_mdscr : forall dbg m mdscr c ss c' d', a_session dbg m mdscr c ss = Some (Ok (c', d')) -> exists b, answer ss = Some b
  /\ d' = (let d := if is_step (class c) then N.ldiff mdscr 1 else mdscr in if b then N.lor d 0xA001 else d).
Proof.
  intros dbg m mdscr c ss c' d'. revert mdscr. induction ss as [|s ss IH]; intros mdscr H; [discriminate|]. cbn [a_session answer] in *.
  pose proof (entry_mdscr mdscr c) as E. destruct (a_process_entry mdscr c) as [i d]. cbn [snd] in E. destruct s as [f st | |].
  - exists st. split; [reflexivity|]. cbv zeta. rewrite <- E. destruct st.
    + unfold a_set_single_step in H. cbn [ai_ctx ai_type ai_ip] in H. change (N.lor 1 (N.lor 0x8000 0x2000)) with 0xA001 in H.
      destruct (a_process_exit dbg m _) as [i'| |] in H; cbn [bind] in H; congruence.
    + destruct (a_process_exit dbg m _) as [i'| |] in H; cbn [bind] in H; congruence.
  - destruct (IH d H) as (b & A & D). exists b. split; [exact A|]. rewrite D, E. cbv zeta. destruct (is_step (class c)); [rewrite ldiff1_idem|]; reflexivity.
  - discriminate.
Qed.
(** C84: after any history of stops the processor steps exactly as [in_step_mode] says; bits of MDSCR_EL1 other than those for steps (0) and
    for the debugger (13, 15) are as they were. *)
Theorem c84_steps : forall dbg l mdscr d, stops dbg mdscr l = Some d ->
  N.testbit d 0 = in_step_mode (N.testbit mdscr 0) l
  /\ (forall j, j <> 0 -> j <> 13 -> j <> 15 -> N.testbit d j = N.testbit mdscr j)
  /\ (forall j, j <> 0 -> N.testbit mdscr j = true -> N.testbit d j = true).
Proof.
  intros dbg l. induction l as [|[[c m] ss] l IH]; intros mdscr d H; cbn [stops in_step_mode] in *.
  - assert (mdscr = d) by congruence. subst. repeat split; auto.
  - destruct (a_session dbg m mdscr c ss) as [[[c' d']| |]|] eqn:E; try discriminate. destruct (exit_mdscr _ _ _ _ _ _ _ E) as (b & A & D). cbv zeta in D.
    destruct (IH d' d H) as (I1 & I2 & I3). rewrite A.
    assert (T1 : forall j, N.testbit 1 j = (j =? 0)) by (intros j; change 1 with (2 ^ 0); rewrite N.pow2_bits_eqb; apply N.eqb_sym).
    assert (TA : forall j, N.testbit 0xA001 j = (j =? 0) || (j =? 13) || (j =? 15)).
    { intros j. change 0xA001 with (N.lor (2 ^ 0) (N.lor (2 ^ 13) (2 ^ 15))). rewrite !N.lor_spec, !N.pow2_bits_eqb. rewrite (N.eqb_sym 0), (N.eqb_sym 13), (N.eqb_sym 15). apply Bool.orb_assoc. }
    assert (TD : forall j, N.testbit d' j = (b && ((j =? 0) || (j =? 13) || (j =? 15))) || (N.testbit mdscr j && negb (is_step (class c) && (j =? 0)))).
    { intros j. rewrite D. destruct b, (is_step (class c)); rewrite ?N.lor_spec, ?N.ldiff_spec, ?TA, ?T1; destruct (N.testbit mdscr j), (j =? 0), (j =? 13), (j =? 15); reflexivity. }
    split; [|split].
    + rewrite I1, TD. cbn [N.eqb orb andb]. f_equal. destruct b, (N.testbit mdscr 0), (is_step (class c)); reflexivity.
    + intros j J0 J13 J15. rewrite (I2 j J0 J13 J15), TD. rewrite (proj2 (N.eqb_neq j 0) J0), (proj2 (N.eqb_neq j 13) J13), (proj2 (N.eqb_neq j 15) J15).
      destruct b, (N.testbit mdscr j), (is_step (class c)); reflexivity.
    + intros j J0 JT. apply (I3 j J0). rewrite TD, JT, (proj2 (N.eqb_neq j 0) J0). destruct b, (is_step (class c)), (j =? 13), (j =? 15); reflexivity.
Qed.
(** C84: a user who steps gets a step: the processor is in step mode, with its debug exceptions on. *)
Theorem c84_step_taken : forall dbg mdscr l c m ss d, stops dbg mdscr (l ++ [(c, m, ss)]) = Some d -> answer ss = Some true ->
  N.testbit d 0 = true /\ N.testbit d 13 = true /\ N.testbit d 15 = true.
Proof.
  intros dbg mdscr l c m ss d. revert mdscr. induction l as [|[[c0 m0] s0] l IH]; intros mdscr H A; cbn [app stops] in H.
  - destruct (a_session dbg m mdscr c ss) as [[[c' d']| |]|] eqn:E; try discriminate. destruct (exit_mdscr _ _ _ _ _ _ _ E) as (b & A' & D). cbv zeta in D.
    assert (b = true) by congruence. subst b. assert (DD : d = d') by congruence. rewrite DD, D. repeat split; rewrite N.lor_spec; apply Bool.orb_true_r.
  - destruct (a_session dbg m0 mdscr c0 s0) as [[[c' d']| |]|] eqn:E; try discriminate. exact (IH d' H A).
Qed.
(** Not so: that a user who continues is not stopped again for a step.  If the instruction stepped raises another exception (an abort, or a
    breakpoint), step mode stays on. *)
Theorem c84_continue_refuted : forall dbg mdscr c1 m1 s1 c2 m2 s2 d,
  answer s1 = Some true -> is_step (class c2) = false -> answer s2 = Some false ->
  stops dbg mdscr [(c1, m1, s1); (c2, m2, s2)] = Some d -> N.testbit d 0 = true.
Proof.
  intros dbg mdscr c1 m1 s1 c2 m2 s2 d A1 S2 A2 H. destruct (c84_steps _ _ _ _ H) as (T & _). rewrite T. cbn [in_step_mode]. rewrite A1, A2, S2. reflexivity.
Qed.
(** C84: testing an address.  The answer says whether the load raised an exception; the program goes on behind it, unchanged, the user sees
    nothing of it, and the next exception is again the user's. *)
Theorem c84_poke : forall dbg m mdscr fault l, (forall c, fault = Some c -> a_elr c + 4 < two64) ->
  a_poke dbg m mdscr fault l = Some (Ok (match fault with None => true | Some _ => false end, false,
                                         match fault with None => None | Some c => Some (with_elr c (a_elr c + 4)) end))
  /\ forall c l', a_handle dbg m false mdscr c l' = match a_session dbg m mdscr c l' with Some (Ok (x, d)) => Some (Ok (x, d, false)) | Some (Err e) => Some (Err e) | Some Panic => Some Panic | None => None end.
Proof.
  intros dbg m mdscr fault l H. split; [|reflexivity]. unfold a_poke. destruct fault as [c|]; [|reflexivity]. unfold a_handle, a_check_poke, uadd.
  specialize (H c eq_refl). destruct (a_elr c + 4 <? two64) eqn:E; [reflexivity | lia].
Qed.

(** ** Watchpoints *)

(** C84: a start clears the four slots, turns debug exceptions on, and changes nothing else. *)
Theorem c84_start : forall s,
  map hw_slot (s_w (a_initialize s)) = map (fun _ => None) (s_w s)
  /\ (forall j, N.testbit (s_mdscr (a_initialize s)) j = (j =? 13) || (j =? 15) || N.testbit (s_mdscr s) j)
  /\ (forall j, N.testbit (s_daif (a_initialize s)) j = negb (j =? 9) && N.testbit (s_daif s) j).
Proof.
  intros s. cbn [a_initialize s_w s_mdscr s_daif]. split; [|split].
  - rewrite map_map. apply map_ext. intros w. reflexivity.
  - intros j. change (N.lor 0x8000 0x2000) with (N.lor (2 ^ 15) (2 ^ 13)). rewrite !N.lor_spec, !N.pow2_bits_eqb, (N.eqb_sym 15), (N.eqb_sym 13).
    destruct (N.testbit (s_mdscr s) j), (j =? 13), (j =? 15); reflexivity.
  - intros j. change 0x200 with (2 ^ 9). rewrite N.ldiff_spec, N.lor_spec, N.pow2_bits_eqb, (N.eqb_sym 9). destruct (N.testbit (s_daif s) j), (j =? 9); reflexivity.
Qed.
(** Not so: that a start opens the OS lock, under which the processor takes neither steps nor watchpoints.  The test is of bit 0, which is not the lock. *)
Theorem c84_os_lock_refuted : forall s, N.testbit (s_oslsr s) 0 = false -> os_locked (s_oslsr (a_initialize s)) = os_locked (s_oslsr s).
Proof.
  intros s H. cbn [a_initialize s_oslsr]. rewrite N.bit0_odd in H. change 1 with (N.ones 1). rewrite N.land_ones. change (2 ^ 1) with 2.
  replace (s_oslsr s mod 2) with 0; [reflexivity|]. rewrite <- N.bit0_odd in H. pose proof (N.testbit_spec' (s_oslsr s) 0) as T. rewrite H in T. cbn in T. rewrite N.div_1_r in T. exact T.
Qed.

Definition wcr_of (n : N) (k : watch) : N := 0x6007 + 8 * ((if loads k then 1 else 0) + (if stores k then 2 else 0)) + 32 * (2 ^ n - 1).
Definition rel (w : N * N) (s : option entry) : Prop :=
  match s with None => snd w = 0 | Some (a, n, k) => n <= 8 /\ w = (a, wcr_of n k) end.
Ltac nine H := let J := fresh in assert (J := H);
  match type of H with ?n <= 8 => assert (n = 0 \/ n = 1 \/ n = 2 \/ n = 3 \/ n = 4 \/ n = 5 \/ n = 6 \/ n = 7 \/ n = 8) as [-> | [-> | [-> | [-> | [-> | [-> | [-> | [-> | ->]]]]]]]] by lia end; clear J.
(** A slot counts as in use when the processor's own enable bit says so, also one that earlier firmware left behind. *)
Theorem c84_enable_bit : forall v, wcr_enable v = N.testbit v 0.
Proof.
  intros v. unfold wcr_enable, get_field. rewrite N.shiftr_0_r, N.land_ones, N.bit0_odd. change (2 ^ 1) with 2. pose proof (N.bit0_mod v) as B. rewrite N.bit0_odd in B. rewrite <- B. destruct (N.odd v); reflexivity.
Qed.
Lemma wcr_of_fields : forall n k, n <= 8 -> wcr_enable (wcr_of n k) = true /\ wcr_bas (wcr_of n k) = 2 ^ n - 1
  /\ wcr_lsc (wcr_of n k) = (if loads k then 1 else 0) + (if stores k then 2 else 0).
Proof. intros n k H. nine H; destruct k; vm_compute; repeat split. Qed.
Lemma bas_of : forall len, calculate_bas len = 2 ^ (N.min 8 len) - 1.
Proof. intros len. unfold calculate_bas. assert (H : N.min 8 len <= 8) by lia. remember (N.min 8 len) as n eqn:E. clear E. nine H; reflexivity. Qed.
Lemma lsc_of : forall k, calculate_lsc k = (if loads k then 1 else 0) + (if stores k then 2 else 0).
Proof. intros []; reflexivity. Qed.
Lemma pow_eqb : forall n m, (2 ^ n - 1 =? 2 ^ m - 1) = (n =? m).
Proof.
  intros n m. assert (P : forall x, 0 < 2 ^ x) by (intros x; apply N.neq_0_lt_0, N.pow_nonzero; discriminate).
  pose proof (P n). pose proof (P m). destruct (n =? m) eqn:E.
  - apply N.eqb_eq in E. subst. apply N.eqb_refl.
  - apply N.eqb_neq. intros Q. assert (2 ^ n = 2 ^ m) by lia. apply N.pow_inj_r in H1; lia.
Qed.
Lemma rel_same : forall w s a len k, rel w s -> same_watch a (calculate_bas len) (calculate_lsc k) w = holds (a, N.min 8 len, k) s.
Proof.
  intros w s a len k R. destruct s as [[[b n] k']|]; cbn [rel] in R.
  - destruct R as [L ->]. unfold same_watch. cbn [fst snd]. destruct (wcr_of_fields n k' L) as (-> & -> & ->). rewrite bas_of, lsc_of, pow_eqb. cbn [holds entry_eqb andb].
    rewrite (N.eqb_sym n), (N.eqb_sym b). destruct (a =? b), (N.min 8 len =? n), k, k'; reflexivity.
  - unfold same_watch. rewrite R. reflexivity.
Qed.
Lemma rel_free : forall w s, rel w s -> wcr_enable (snd w) = match s with Some _ => true | None => false end.
Proof. intros w [[[a n] k]|] R; cbn [rel] in R; [destruct R as [L ->]; apply (wcr_of_fields n k L) | rewrite R; reflexivity]. Qed.
Lemma new_wcr : forall len k,
  set_field (set_field (set_field (set_field (set_field (set_field 0 0 1 1) 5 8 (calculate_bas len)) 3 2 (calculate_lsc k)) 13 1 1) 14 2 1) 1 2 3 = wcr_of (N.min 8 len) k.
Proof. intros len k. rewrite bas_of. assert (H : N.min 8 len <= 8) by lia. remember (N.min 8 len) as n eqn:E. clear E. nine H; destruct k; reflexivity. Qed.
Lemma fill_rel : forall l t a n k, Forall2 rel l t -> n <= 8 ->
  fst (fill_first (a, wcr_of n k) l) = fst (into_free_a (a, n, k) t) /\ Forall2 rel (snd (fill_first (a, wcr_of n k) l)) (snd (into_free_a (a, n, k) t)).
Proof.
  intros l t a n k F L. induction F as [|w s l t R F IH]; [split; [reflexivity | constructor]|]. cbn [fill_first into_free_a]. rewrite (rel_free w s R).
  destruct s as [e|]; cbn [negb].
  - destruct (fill_first (a, wcr_of n k) l), (into_free_a (a, n, k) t). cbn [fst snd] in *. destruct IH as [-> IH]. split; [reflexivity | constructor; assumption].
  - split; [reflexivity|]. constructor; [split; [exact L | reflexivity] | exact F].
Qed.
Lemma remove_rel : forall l t a len k, Forall2 rel l t ->
  fst (a_remove_watchpoint l a len k) = existsb (holds (a, N.min 8 len, k)) t /\ Forall2 rel (snd (a_remove_watchpoint l a len k)) (drop_first_a (a, N.min 8 len, k) t).
Proof.
  intros l t a len k F. unfold a_remove_watchpoint. induction F as [|w s l t R F IH]; [split; [reflexivity | constructor]|]. cbn [a_remove drop_first_a existsb].
  rewrite (rel_same w s a len k R). destruct (holds (a, N.min 8 len, k) s); cbn [orb].
  - split; [reflexivity|]. constructor; [reflexivity | exact F].
  - destruct (a_remove a (calculate_bas len) (calculate_lsc k) l). cbn [fst snd] in *. destruct IH as [-> IH]. split; [reflexivity | constructor; assumption].
Qed.
Lemma existsb_rel : forall l t a len k, Forall2 rel l t -> existsb (same_watch a (calculate_bas len) (calculate_lsc k)) l = existsb (holds (a, N.min 8 len, k)) t.
Proof. intros l t a len k F. induction F as [|w s l t R F IH]; [reflexivity|]. cbn [existsb]. rewrite (rel_same w s a len k R), IH. reflexivity. Qed.
Lemma step_rel : forall keep l t o, Forall2 rel l t -> keep = true \/ aop_addr o mod 4 = 0 ->
  let r := match o with AAdd a len k => a_add_watchpoint keep l a len k | ARemove a len k => a_remove_watchpoint l a len k end in
  fst r = fst (step_a t o) /\ Forall2 rel (snd r) (snd (step_a t o)).
Proof.
  intros keep l t o F K. destruct o as [a len k | a len k]; cbn [aop_addr] in K; cbn [step_a].
  - unfold a_add_watchpoint. rewrite (existsb_rel l t a len k F). destruct (existsb (holds (a, N.min 8 len, k)) t); [split; [reflexivity | exact F]|].
    rewrite new_wcr. assert (W : wvr_written keep a = a) by (unfold wvr_written; destruct keep; [reflexivity | destruct K; [discriminate | lia]]). rewrite W.
    apply fill_rel; [exact F | lia].
  - apply remove_rel. exact F.
Qed.
Lemma run_rel : forall keep ops l t, Forall2 rel l t -> (forall o, In o ops -> keep = true \/ aop_addr o mod 4 = 0) ->
  fst (run_a keep l ops) = fst (table_a t ops) /\ Forall2 rel (snd (run_a keep l ops)) (snd (table_a t ops)).
Proof.
  intros keep ops. induction ops as [|o ops IH]; intros l t F K; [split; [reflexivity | exact F]|]. cbn [run_a table_a].
  destruct (step_rel keep l t o F (K o (or_introl eq_refl))) as [A B]. cbv zeta in A, B.
  destruct (match o with AAdd a len k => a_add_watchpoint keep l a len k | ARemove a len k => a_remove_watchpoint l a len k end) as [b l'].
  destruct (step_a t o) as [b' t']. cbn [fst snd] in *. subst b'. destruct (IH l' t' B ltac:(intros x X; apply K; right; exact X)) as [C D].
  destruct (run_a keep l' ops) as [bs l'']. destruct (table_a t' ops) as [bs' t'']. cbn [fst snd] in *. subst bs'. split; [reflexivity | exact D].
Qed.
Lemma rel_slot : forall w s, rel w s -> hw_slot w = option_map as_fields s /\ (s <> None -> all_levels (snd w)).
Proof.
  intros w [[[a n] k]|] R; cbn [rel] in R.
  - destruct R as [L ->]. split.
    + nine L; destruct k; reflexivity.
    + intros _. unfold all_levels. nine L; destruct k; split; reflexivity.
  - unfold hw_slot. rewrite R. split; [reflexivity | congruence].
Qed.
Lemma start_rel : forall s, Forall2 rel (s_w (a_initialize s)) (map (fun _ => None) (s_w s)).
Proof. intros s. cbn [a_initialize s_w]. induction (s_w s) as [|w l IH]; [constructor|]. cbn [map]. constructor; [reflexivity | exact IH]. Qed.
(** C84: after any history of watchpoints set and removed since the start the processor watches what a table of slots holds, at all levels, and the
    answers are those of the table.  The addresses must be multiples of four, unless the processor reads their low bits back. *)
Theorem c84_history_partial : forall keep s ops, (forall o, In o ops -> keep = true \/ aop_addr o mod 4 = 0) ->
  let r := run_a keep (s_w (a_initialize s)) ops in
  let t := table_a (map (fun _ => None) (s_w s)) ops in
  fst r = fst t /\ map hw_slot (snd r) = map (option_map as_fields) (snd t)
  /\ Forall (fun w => N.testbit (snd w) 0 = true -> all_levels (snd w)) (snd r).
Proof.
  intros keep s ops K r t. destruct (run_rel keep ops _ _ (start_rel s) K) as [A B]. fold r t in A, B. split; [exact A|].
  clear A. induction B as [|w o l u R B IH]; [split; [reflexivity | constructor]|]. destruct IH as [I1 I2]. destruct (rel_slot w o R) as [S1 S2]. cbn [map]. split.
  - rewrite S1, I1. reflexivity.
  - constructor; [|exact I2]. intros E. apply S2. intros ->. unfold hw_slot in S1. rewrite E in S1. discriminate.
Qed.
(** C84: the bytes watched are those asked for, and the accesses too, for up to eight bytes from a multiple of eight, and up to four from a multiple of four. *)
Theorem c84_covers_partial : forall a n k x, (a mod 8 = 0 /\ n <= 8) \/ (a mod 4 = 0 /\ n <= 4) ->
  (hw_covers (as_fields (a, n, k)) x <-> a <= x /\ x < a + n) /\ hw_loads (as_fields (a, n, k)) = loads k /\ hw_stores (as_fields (a, n, k)) = stores k.
Proof.
  intros a n k x H. assert (L : n <= 8) by lia.
  assert (T : forall i, N.testbit (2 ^ n - 1) i = (i <? n)).
  { intros i. rewrite N.sub_1_r, <- N.ones_equiv. destruct (i <? n) eqn:E; [apply N.ones_spec_low; lia | apply N.ones_spec_high; lia]. }
  split; [|split; destruct k; reflexivity]. unfold hw_covers, as_fields. split.
  - intros (i & I & B & ->). rewrite T in B. lia.
  - intros [X1 X2]. exists (x - a). rewrite T. split; [|split; lia].
    assert (T2 : N.testbit a 2 = true -> n <= 4).
    { intros B. destruct H as [[H _] | [_ H]]; [|exact H]. pose proof (N.testbit_spec' a 2) as S. rewrite B in S. change (2 ^ 2) with 4 in S. cbn [N.b2n] in S. lia. }
    destruct (N.testbit a 2); [specialize (T2 eq_refl)|]; lia.
Qed.
(** Not so: any other address.  It is accepted, and the last byte is not watched; of one, two or three bytes at the end of a word, none is. *)
Theorem c84_unaligned_refuted : forall a n k, a mod 4 <> 0 -> 0 < n -> n <= 8 ->
  ~ hw_covers (as_fields (a, n, k)) (a + n - 1) /\ (n <= a mod 4 -> forall x, a <= x -> ~ hw_covers (as_fields (a, n, k)) x).
Proof.
  intros a n k A N0 L.
  assert (T : forall i, N.testbit (2 ^ n - 1) i = (i <? n)).
  { intros i. rewrite N.sub_1_r, <- N.ones_equiv. destruct (i <? n) eqn:E; [apply N.ones_spec_low; lia | apply N.ones_spec_high; lia]. }
  unfold hw_covers, as_fields. split.
  - intros (i & I & B & E). rewrite T in B. lia.
  - intros M x X (i & I & B & E). rewrite T in B. lia.
Qed.
(** Not so: a range that crosses a multiple of eight, or is longer.  What lies behind is not watched. *)
Theorem c84_long_refuted : forall a n k x, a mod 4 = 0 -> 8 * (a / 8) + 8 <= x -> ~ hw_covers (as_fields (a, N.min 8 n, k)) x.
Proof.
  intros a n k x A X. unfold hw_covers, as_fields. intros (i & I & B & E). pose proof (N.testbit_spec' a 2) as S. change (2 ^ 2) with 4 in S.
  destruct (N.testbit a 2); cbn [N.b2n] in S; lia.
Qed.
(** Not so: that a watchpoint can be removed.  If the reserved bits of the address read as zero, one at an address that is no multiple of four stays; and
    asking for it four times uses up the table. *)
Theorem c84_remove_refuted : forall s a n k, length (s_w s) = 4%nat -> a mod 4 <> 0 ->
  fst (run_a false (s_w (a_initialize s)) [AAdd a n k; ARemove a n k; AAdd a n k; AAdd a n k; AAdd a n k; AAdd a n k])
  = [true; false; true; true; true; false].
Proof.
  intros s a n k L A. cbn [a_initialize s_w]. destruct (s_w s) as [|[w0 v0] [|[w1 v1] [|[w2 v2] [|[w3 v3] [|]]]]]; try discriminate. cbn [map fst].
  assert (D : forall v, wcr_enable v = true -> same_watch a (calculate_bas n) (calculate_lsc k) (a - a mod 4, v) = false).
  { intros v _. unfold same_watch. cbn [fst snd]. destruct (a - a mod 4 =? a) eqn:E; [lia|]. apply Bool.andb_false_r. }
  assert (Z : forall w, same_watch a (calculate_bas n) (calculate_lsc k) (w, 0) = false) by reflexivity.
  destruct (wcr_of_fields (N.min 8 n) k ltac:(lia)) as (EN & _ & _). specialize (D _ EN).
  assert (AD : forall l, existsb (same_watch a (calculate_bas n) (calculate_lsc k)) l = false -> a_add_watchpoint false l a n k = fill_first (a - a mod 4, wcr_of (N.min 8 n) k) l).
  { intros l E. unfold a_add_watchpoint. rewrite E, new_wcr. reflexivity. }
  set (q := (a - a mod 4, wcr_of (N.min 8 n) k)) in *. cbn [run_a].
  assert (Z0 : forall w, wcr_enable (@snd N N (w, 0)) = false) by reflexivity. assert (QE : wcr_enable (snd q) = true) by exact EN.
  rewrite AD by (cbn [existsb]; rewrite !Z; reflexivity). cbn [fill_first]. rewrite Z0. cbn [negb].
  unfold a_remove_watchpoint. cbn [a_remove]. rewrite D, !Z.
  rewrite AD by (cbn [existsb]; rewrite ?D, !Z; reflexivity). cbn [fill_first]. rewrite QE, Z0. cbn [negb].
  rewrite AD by (cbn [existsb]; rewrite ?D, !Z; reflexivity). cbn [fill_first]. rewrite QE, Z0. cbn [negb].
  rewrite AD by (cbn [existsb]; rewrite ?D, !Z; reflexivity). cbn [fill_first]. rewrite QE, Z0. cbn [negb].
  rewrite AD by (cbn [existsb]; rewrite ?D; reflexivity). cbn [fill_first]. rewrite QE. reflexivity.
Qed.

(** ** Cases *)

Definition demo_actx : actx := Actx (map N.of_nat (seq 100 29)) 29 30 0x8000 0x1000 0x60000209 7 (0x3C * 2 ^ 26) 0x5000 0.
Example demo_actx_ok : actx_ok demo_actx.
Proof. unfold actx_ok, demo_actx, a_described. cbn [a_x a_fp a_lr a_sp a_elr a_fpsr a_spsr seq map]. split; [reflexivity|]. split; [|reflexivity]. cbn [app]. repeat (constructor; [reflexivity|]). constructor. Qed.
Example demo_arm_packet : a_shown (a_packet_read demo_actx) 32 = 0x1000 /\ a_shown_cpsr (a_packet_read demo_actx) = 0x60000209 /\ is_break (class demo_actx) = true.
Proof. vm_compute. repeat split. Qed.
Example demo_brk : brk_at (fun x => nth (N.to_nat (x - 0x1000)) [0; 0; 0x20; 0xD4] 9) 0x1000.
Proof. vm_compute. repeat split. Qed.
Example demo_stops : exists d, stops true 0 [(demo_actx, (fun _ => 0), [AGo (fun x => x) true]); (demo_actx, (fun _ => 0), [AStubError; AGo (fun x => x) false])] = Some d /\ N.testbit d 0 = true.
Proof. eexists. split; vm_compute; reflexivity. Qed.
Example demo_arm_watch : let s := Asys [(7, 7); (7, 7); (7, 7); (7, 7)] 0 0x200 0xA in
  let ops := [AAdd 0x1000 1 WWrite; AAdd 0x2000 2 WRead; AAdd 0x3000 4 WReadWrite; ARemove 0x2000 1 WRead; ARemove 0x2000 2 WRead; AAdd 0x1000 1 WWrite; AAdd 0x1000 8 WRead; AAdd 0x4000 16 WWrite; AAdd 0x5000 1 WWrite] in
  fst (run_a false (s_w (a_initialize s)) ops) = [true; true; true; false; true; true; true; true; false]
  /\ map hw_slot (snd (run_a false (s_w (a_initialize s)) ops)) = [Some (0x1000, 1, 2); Some (0x1000, 255, 1); Some (0x3000, 15, 3); Some (0x4000, 255, 2)]
  /\ os_locked (s_oslsr (a_initialize s)) = true.
Proof. vm_compute. repeat split. Qed.

Print Assumptions c84_read.
Print Assumptions c84_write.
Print Assumptions c84_write_back_partial.
Print Assumptions c84_status_refuted.
Print Assumptions c84_ids.
Print Assumptions c84_reason.
Print Assumptions c84_resume.
Print Assumptions c84_hardcoded.
Print Assumptions c84_no_resume.
Print Assumptions c84_steps.
Print Assumptions c84_step_taken.
Print Assumptions c84_continue_refuted.
Print Assumptions c84_poke.
Print Assumptions c84_start.
Print Assumptions c84_os_lock_refuted.
Print Assumptions c84_enable_bit.
Print Assumptions c84_history_partial.
Print Assumptions c84_covers_partial.
Print Assumptions c84_unaligned_refuted.
Print Assumptions c84_long_refuted.
Print Assumptions c84_remove_refuted.
