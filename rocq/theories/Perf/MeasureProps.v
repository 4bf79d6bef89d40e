(** C68: measurements, and the records of earlier phases and of management mode. *)
From Coq Require Import Ascii String.
From Verif Require Import Base.Prelude Base.Bytes Mm.Model Mm.Spec Mm.Props Perf.Model Perf.Spec Perf.Proofs Perf.Main Perf.Props Perf.Measure.
Local Open Scope N_scope.

(** ** Ids *)
Lemma known_spec : forall i, known_id i = true <-> known i.
Proof.
  intros i. unfold known_id, known_ids, known. cbn [existsb]. rewrite !orb_true_iff, !N.eqb_eq. split; [intros H|intros H].
  - repeat destruct H as [H|H]; try lia; discriminate.
  - destruct H as [H|H]; [|tauto]. assert (C : i = 0 \/ i = 1 \/ i = 2 \/ i = 3 \/ i = 4 \/ i = 5 \/ i = 6 \/ i = 7 \/ i = 8 \/ i = 9 \/ i = 10) by lia. tauto.
Qed.

Definition token_ids (t : token) : N * N :=
  match t with
  | StartImage => (0x01, 0x02) | LoadImage => (0x03, 0x04) | DbStart => (0x05, 0x06) | DbSupport => (0x07, 0x08) | DbStop => (0x09, 0x0A)
  | PEI | DXE | BDS => (0x50, 0x51) | SEC | PEIM => (0x40, 0x41)
  end.

Lemma token_spec : forall x, match token_of x with Some t => In (x, token_ids t) names | None => ~ In x (map fst names) end.
Proof.
  intros x. unfold token_of. destruct (find _ tokens) as [t|] eqn:E.
  - apply List.find_some in E. destruct E as (_ & E). apply bytes_eqb_spec in E. subst x. destruct t; vm_compute; tauto.
  - intros H. assert (NF : forall t, In t tokens -> x <> token_bytes t).
    { intros t I ->. pose proof (List.find_none _ _ E t I) as F. cbn beta in F. rewrite (proj2 (bytes_eqb_spec _ _) eq_refl) in F. discriminate. }
    cbn [names map fst In] in H.
    repeat destruct H as [H|H]; try tauto; symmetry in H; revert H.
    + apply (NF StartImage); vm_compute; tauto.
    + apply (NF LoadImage); vm_compute; tauto.
    + apply (NF DbStart); vm_compute; tauto.
    + apply (NF DbSupport); vm_compute; tauto.
    + apply (NF DbStop); vm_compute; tauto.
    + apply (NF PEI); vm_compute; tauto.
    + apply (NF DXE); vm_compute; tauto.
    + apply (NF BDS); vm_compute; tauto.
    + apply (NF SEC); vm_compute; tauto.
    + apply (NF PEIM); vm_compute; tauto.
Qed.

Definition is_token (s : option (list N)) : bool := match s with Some str => match token_of str with Some _ => true | None => false end | None => false end.

Lemma named_spec : forall s, is_token s = true <-> named s.
Proof.
  intros s. unfold is_token, named. destruct s as [x|]; [|split; [discriminate|intros (x & X & _); discriminate]].
  pose proof (token_spec x) as T. destruct (token_of x) as [t|].
  - split; [intros _; exists x; split; [reflexivity|]; change x with (fst (x, token_ids t)); apply in_map, T|reflexivity].
  - split; [discriminate|]. intros (y & [= <-] & I). tauto.
Qed.

Lemma mod_16 : forall i, (i mod 65536) mod 16 = i mod 16.
Proof. intros i. change 65536 with (16 * 4096). rewrite N.mod_mul_r by lia. rewrite N.add_mod, N.mul_comm, N.mod_mul, N.add_0_r, !N.mod_mod by lia. reflexivity. Qed.

Lemma land_15 : forall i, N.land i 0x000F = i mod 16.
Proof. intros i. change 0x000F with (N.ones 4). now rewrite N.land_ones. Qed.

Lemma land_fff0 : forall i, i < 65536 -> N.land i 0xFFF0 = 16 * (i / 16).
Proof.
  intros i L. assert (D : N.land i 0xFFF0 = N.ldiff i 15).
  { apply N.bits_inj. intros k. rewrite N.land_spec, N.ldiff_spec.
    destruct (N.lt_ge_cases k 16) as [K|K].
    - f_equal. assert (C : k=0\/k=1\/k=2\/k=3\/k=4\/k=5\/k=6\/k=7\/k=8\/k=9\/k=10\/k=11\/k=12\/k=13\/k=14\/k=15) by lia.
      repeat destruct C as [->|C]; subst; reflexivity.
    - assert (Z : N.testbit i k = false); [|now rewrite Z].
      destruct (N.eq_dec i 0) as [->|NZ]; [apply N.bits_0|]. apply N.bits_above_log2. apply N.log2_lt_pow2; [lia|].
      eapply N.lt_le_trans; [exact L|]. change 65536 with (2 ^ 16). apply N.pow_le_mono_r; lia. }
  rewrite D. change 15 with (N.ones 4). rewrite N.ldiff_ones_r. rewrite N.shiftl_mul_pow2, N.shiftr_div_pow2. change (2 ^ 4) with 16. lia.
Qed.

Lemma by_name : forall caller s a, a <> PerfEntry ->
  try_from_perf_info caller s a = match s with
    | Some x => Ok (start_or_end a (match token_of x with Some t => token_ids t | None => (0x40, 0x41) end))
    | None => if caller =? 0 then Err InvalidParameter else Ok (start_or_end a (0x40, 0x41))
    end.
Proof.
  intros caller s a NE. unfold try_from_perf_info. destruct s as [x|].
  - destruct (token_of x) as [t|]; [destruct t|]; destruct a; try congruence; reflexivity.
  - destruct (caller =? 0); destruct a; try congruence; reflexivity.
Qed.

(** The id of a measurement is as described, and there is one description for each. *)
Theorem c68_id : forall caller s identifier a o,
  recorded_as caller s identifier a o <-> perf_id caller s identifier a = match o with Some i => Ok i | None => Err InvalidParameter end.
Proof.
  intros caller s identifier a o. unfold perf_id. change two16 with 65536. fold (is_token s). remember (identifier mod 65536) as id eqn:ID.
  assert (IL : id < 65536) by (subst id; apply N.mod_lt; lia).
  assert (KN : forall b, known_id id = b -> (b = true -> known id) /\ (b = false -> ~ known id)).
  { intros b <-. pose proof (known_spec id). split; [tauto|]. intros F K. apply known_spec in K. congruence. }
  assert (TN : forall b, is_token s = b -> (b = true -> named s) /\ (b = false -> ~ named s)).
  { intros b <-. pose proof (named_spec s). split; [tauto|]. intros F K. apply named_spec in K. congruence. }
  destruct (KN _ eq_refl) as (K1 & K2). destruct (TN _ eq_refl) as (T1 & T2). clear KN TN.
  assert (Z0 : id = 0 -> known_id id = true) by (intros ->; reflexivity).
  split.
  - intros R. destruct R as [|a NE NZ K T|NK NT|NK NT|a NE NZ C|a x p NE Z E I|a x NE Z E NT|a NE Z E C|a NE Z E C]; rewrite <- ?ID in *; try subst s; try subst caller.
    + reflexivity.
    + apply known_spec in K. apply named_spec in T. rewrite K, T. destruct (N.eqb_spec id 0); [contradiction|]. destruct a; [reflexivity|reflexivity|congruence].
    + assert (known_id id = false) as -> by (destruct (known_id id); [tauto|reflexivity]). assert (is_token s = false) as -> by (destruct (is_token s); [tauto|reflexivity]).
      destruct (N.eqb_spec id 0) as [Z|Z]; [specialize (Z0 Z); exfalso; apply NK, known_spec; exact Z0|]. cbn [negb andb]. rewrite land_15, land_fff0 by exact IL.
      destruct (N.eqb_spec (id mod 16) 0) as [M|M]; [|reflexivity]. cbn [negb]. f_equal. pose proof (N.div_mod id 16 ltac:(lia)). lia.
    + assert (known_id id = false) as -> by (destruct (known_id id); [tauto|reflexivity]). assert (is_token s = false) as -> by (destruct (is_token s); [tauto|reflexivity]).
      destruct (N.eqb_spec id 0) as [Z|Z]; [specialize (Z0 Z); exfalso; apply NK, known_spec; exact Z0|]. cbn [negb andb]. rewrite land_15. replace (id mod 16) with (identifier mod 16) by (rewrite ID, mod_16; reflexivity).
      destruct (N.eqb_spec (identifier mod 16) 0) as [M|M]; [|reflexivity]. f_equal. apply N.mod_small. rewrite <- mod_16, <- ID in M. pose proof (N.div_mod id 16 ltac:(lia)). lia.
    + destruct (N.eqb_spec id 0); [contradiction|]. cbn [negb andb].
      assert ((known_id id && is_token s = false) /\ negb (known_id id) && negb (is_token s) = false) as (-> & ->).
      { destruct (known_id id), (is_token s); cbn; tauto. }
      destruct a; [reflexivity|reflexivity|congruence].
    + rewrite Z. cbn [negb andb N.eqb]. pose proof (by_name caller (Some x) a NE) as B. pose proof (token_spec x) as TS.
      assert (TP : match token_of x with Some t => token_ids t | None => (0x40, 0x41) end = p).
      { destruct (token_of x) as [t|]; [|exfalso; apply TS; change x with (fst (x, p)); apply in_map, I].
        clear - TS I. cbn [names In] in I, TS.
        repeat (destruct I as [I|I]; [injection I as I1 I2; subst p; rewrite <- I1 in TS; clear I1;
          repeat (destruct TS as [TS|TS]; [first [discriminate TS|injection TS as TS; exact (eq_sym TS)|congruence]|]); contradiction|]). contradiction. }
      cbv iota in B. rewrite TP in B. destruct a; try congruence; rewrite B; reflexivity.
    + rewrite Z. cbn [negb andb N.eqb]. pose proof (by_name caller (Some x) a NE) as B. assert (TK : is_token (Some x) = false) by (destruct (is_token (Some x)) eqn:X; [apply named_spec in X; contradiction|reflexivity]).
      unfold is_token in TK. cbv iota in B. destruct (token_of x); [discriminate|]. destruct a; try congruence; rewrite B; reflexivity.
    + rewrite Z. cbn [negb andb N.eqb]. pose proof (by_name caller None a NE) as B. destruct (N.eqb_spec caller 0); [contradiction|]. destruct a; try congruence; rewrite B; reflexivity.
    + rewrite Z. cbn [negb andb N.eqb]. pose proof (by_name 0 None a NE) as B. destruct a; try congruence; rewrite B; reflexivity.
  - intros E. assert (OI : forall r : res efi_error N, forall v, r = Ok v -> r = match o with Some i => Ok i | None => Err InvalidParameter end -> o = Some v) by (intros r v -> X; destruct o; congruence).
    destruct (match a with PerfEntry => true | _ => false end) eqn:PE.
    { destruct a; try discriminate. apply (OI _ id eq_refl) in E. subst o. rewrite ID. apply as_given. }
    assert (NE : a <> PerfEntry) by (intros ->; discriminate). clear PE.
    destruct (N.eqb_spec id 0) as [Z|Z]; cbn [negb andb] in E.
    + assert (E' : try_from_perf_info caller s a = match o with Some i => Ok i | None => Err InvalidParameter end) by (destruct a; try congruence; exact E). clear E.
      rewrite by_name in E' by exact NE. destruct s as [x|].
      * pose proof (token_spec x) as TS. destruct (token_of x) as [t|] eqn:TK.
        -- apply (OI _ _ eq_refl) in E'. subst o. subst id; eapply as_name; eauto.
        -- apply (OI _ _ eq_refl) in E'. subst o. subst id; eapply as_other_name; eauto. apply T2. unfold is_token. now rewrite TK.
      * destruct (N.eqb_spec caller 0) as [C|C].
        -- destruct o; [discriminate|]. subst id; apply as_nothing; auto.
        -- apply (OI _ _ eq_refl) in E'. subst o. subst id; apply as_handle; auto.
    + destruct (known_id id) eqn:K; destruct (is_token s) eqn:T; cbn [negb andb] in E.
      * destruct o; [destruct a; congruence|]. subst id; apply as_ambiguous; auto.
      * assert (o = Some id) as -> by (destruct a; try congruence; apply (OI _ _ eq_refl E)). subst id; apply as_id; auto.
      * assert (o = Some id) as -> by (destruct a; try congruence; apply (OI _ _ eq_refl E)). subst id; apply as_id; auto.
      * destruct a; [| |congruence].
        -- assert (o = Some (16 * (id / 16))) as ->; [|subst id; apply as_start; auto]. apply (OI _ _ (eq_refl)) in E. rewrite E. f_equal. rewrite land_15, land_fff0 by exact IL.
           destruct (N.eqb_spec (id mod 16) 0) as [M|M]; [|reflexivity]. cbn [negb]. pose proof (N.div_mod id 16 ltac:(lia)). lia.
        -- assert (o = Some (if identifier mod 16 =? 0 then id + 1 else id)) as ->; [|subst id; apply as_end; auto]. apply (OI _ _ (eq_refl)) in E. rewrite E. f_equal. rewrite land_15. replace (id mod 16) with (identifier mod 16) by (rewrite ID, mod_16; reflexivity).
           destruct (N.eqb_spec (identifier mod 16) 0) as [M|M]; [|reflexivity]. apply N.mod_small. rewrite <- mod_16, <- ID in M. pose proof (N.div_mod id 16 ltac:(lia)). lia.
Qed.

(** A start and an end with the same unknown identifier get ids that agree but for the last four bits, which are zero for
    the start only. *)
Theorem c68_pair : forall c1 c2 s1 s2 identifier i j, ~ known (identifier mod 65536) -> ~ named s1 -> ~ named s2 ->
  perf_id c1 s1 identifier PerfStart = Ok i -> perf_id c2 s2 identifier PerfEnd = Ok j ->
  i / 16 = j / 16 /\ i mod 16 = 0 /\ j mod 16 <> 0.
Proof.
  intros c1 c2 s1 s2 identifier i j NK N1 N2 E1 E2.
  pose proof (proj1 (c68_id c1 s1 identifier _ _) (as_start c1 s1 identifier NK N1)) as F1. pose proof (proj1 (c68_id c2 s2 identifier _ _) (as_end c2 s2 identifier NK N2)) as F2.
  rewrite E1 in F1. rewrite E2 in F2. cbv iota in F1, F2. clear E1 E2.
  assert (I1 : i = 16 * (identifier mod 65536 / 16)) by congruence. assert (I2 : j = if identifier mod 16 =? 0 then identifier mod 65536 + 1 else identifier mod 65536) by congruence.
  clear F1 F2. subst i j. set (id := identifier mod 65536) in *.
  rewrite <- mod_16. fold id. pose proof (N.div_mod id 16 ltac:(lia)) as D. pose proof (N.mod_lt id 16 ltac:(lia)) as L.
  assert (H0 : 16 * (id / 16) / 16 = id / 16) by (rewrite N.mul_comm; apply N.div_mul; lia). assert (H1 : 16 * (id / 16) mod 16 = 0) by (rewrite N.mul_comm; apply N.mod_mul; lia).
  rewrite H0, H1. split; [|split; [reflexivity|]].
  - destruct (N.eqb_spec (id mod 16) 0) as [Z|Z]; [|reflexivity]. apply N.div_unique with (r := 1); lia.
  - destruct (N.eqb_spec (id mod 16) 0) as [Z|Z]; [|exact Z]. rewrite <- (N.mod_unique (id + 1) 16 (id / 16) 1) by lia. lia.
Qed.

(** The adjusted id of a start can be one with a meaning of its own; then the measurement is taken for that. *)
Theorem c68_adjusted_refuted : ~ known 0x12 /\ ~ known 0x0B /\
  perf_id 1 (Some (bytes_of "Mine")) 0x12 PerfStart = Ok 0x10 /\ known 0x10 /\
  (forall dbg guid_of peek st time address, create_measurement dbg guid_of peek st 1 None (Some (bytes_of "Mine")) time address 0x12 PerfStart = (Err InvalidParameter, st)) /\
  perf_id 1 (Some (bytes_of "Mine")) 0x0B PerfStart = Ok 0 /\ perf_id 1 (Some (bytes_of "Mine")) 0x10000 PerfEntry = Ok 0.
Proof.
  assert (K : forall i, known_id i = false -> ~ known i) by (intros i H X; apply known_spec in X; congruence).
  split; [apply K; reflexivity|]. split; [apply K; reflexivity|]. split; [vm_compute; reflexivity|]. split; [apply known_spec; reflexivity|].
  split; [intros; reflexivity|]. split; vm_compute; reflexivity.
Qed.

(** ** Records of measurements *)
Definition sane (guid_of peek : N -> list N) (caller : N) (guid s : option (list N)) : Prop :=
  is_guid (guid_of caller) /\ is_guid (peek caller) /\ (forall g, guid = Some g -> is_guid g) /\
  (forall x, s = Some x -> bytes_ok x /\ (length x <= 204)%nat).

Lemma ok_guid : forall g, is_guid g -> bytes_ok g /\ length g = 16%nat.
Proof. intros g (L & F). split; [|exact L]. exact F. Qed.

Lemma head_ok : forall id time, bytes_ok (head id time) /\ length (head id time) = 14%nat.
Proof.
  intros. unfold head. split; [|now rewrite !app_length, !le_bytes_length].
  apply Forall_app. split; [apply le_bytes_ok|]. apply Forall_app. split; [repeat constructor|apply le_bytes_ok].
Qed.

Lemma text_ok : forall guid_of peek caller guid s, sane guid_of peek caller guid s -> bytes_ok (text s) /\ (length (text s) <= 204)%nat.
Proof. intros guid_of peek caller guid s (_ & _ & _ & H). destruct s as [x|]; [apply H; reflexivity|]. split; [vm_compute; repeat constructor|vm_compute; lia]. Qed.

Lemma record_is : forall t cs data n, t < 65536 -> concat cs = data -> bytes_ok data -> n = 4 + N.of_nat (length data) -> n <= 255 ->
  record_of (PRec t 1 cs) = GRec t n 1 data /\ well_formed (record_of (PRec t 1 cs)).
Proof.
  intros t cs data n Ht <- HB -> HL. assert (E : record_of (PRec t 1 cs) = GRec t (4 + N.of_nat (length (concat cs))) 1 (concat cs)) by reflexivity.
  split; [exact E|]. rewrite E. unfold well_formed. cbn [g_type g_rev g_data g_len]. repeat (split; [lia||assumption||reflexivity|]). exact HL.
Qed.

Lemma not_empty_end : forall t cs c, c <> [] -> ~ ends_empty (PRec t 1 (cs ++ [c])).
Proof. intros t cs c NE (x & X). cbn in X. apply app_inj_tail in X. destruct X. congruence. Qed.

Definition counted (st : pstate) (id : N) : N := if id =? 0x03 then (s_count st + 1) mod two32 else s_count st.
Definition counting (st : pstate) (id : N) : pstate := PState (counted st id) (s_mem st) (s_table st).

Lemma zeros4 : le_bytes 4 0 = [0; 0; 0; 0].
Proof. reflexivity. Qed.

(** What the code does for an event. *)
Lemma measure_event : forall dbg guid_of peek st caller guid s time address id a g, sane guid_of peek caller guid s ->
  event guid_of peek (counted st id) caller guid s time address id a g ->
  exists r, record_of r = g /\ well_formed g /\ ~ ends_empty r /\ measure dbg guid_of peek st caller guid s time address id a = with_record dbg (counting st id) r.
Proof.
  intros dbg guid_of peek st caller guid s time address id a g SA EV. pose proof SA as (G1 & G2 & G3 & G4).
  apply ok_guid in G1, G2. destruct G1 as (G1 & L1). destruct G2 as (G2 & L2). destruct (head_ok id time) as (HH & HL).
  pose proof (text_ok _ _ _ _ _ SA) as (TB & TL).
  assert (SAME : id <> 3 -> counting st id = st) by (intros X; unfold counting, counted; destruct (N.eqb_spec id 3); [contradiction|destruct st; reflexivity]).
  destruct EV as [a C|a C|a C|a C|a x gg C E1 E2 NC|a C NC|a C NE].
  - exists (guid_event id 0 time (guid_of caller)). destruct (record_is 0x1010 [le_bytes 2 id; le_bytes 4 0; le_bytes 8 time; guid_of caller] (head id time ++ guid_of caller) 34) as (R & W).
    { lia. } { unfold head. cbn [concat]. now rewrite app_nil_r, zeros4, <- !app_assoc. } { apply Forall_app; auto. } { rewrite app_length, HL, L1. reflexivity. } { lia. }
    split; [exact R|]. split; [rewrite <- R; exact W|]. split; [apply (not_empty_end _ [_; _; _]); intros X; rewrite X in L1; discriminate|].
    destruct C as [->| ->]; rewrite SAME by lia; reflexivity.
  - exists (qword_event id 0 time (guid_of caller) (counted st id)). destruct (record_is 0x1013 [le_bytes 2 id; le_bytes 4 0; le_bytes 8 time; guid_of caller; le_bytes 8 (counted st id)] (head id time ++ guid_of caller ++ le_bytes 8 (counted st id)) 42) as (R & W).
    { lia. } { unfold head. cbn [concat]. now rewrite app_nil_r, zeros4, <- !app_assoc. } { repeat (apply Forall_app; split; auto). apply le_bytes_ok. } { rewrite !app_length, HL, L1, le_bytes_length. reflexivity. } { lia. }
    split; [exact R|]. split; [rewrite <- R; exact W|]. split; [apply (not_empty_end _ [_; _; _; _]); intros X; apply (f_equal (@List.length N)) in X; rewrite le_bytes_length in X; discriminate|].
    destruct C as [->| ->]; [reflexivity|]. rewrite SAME by lia. reflexivity.
  - exists (qword_event id 0 time (guid_of caller) address). destruct (record_is 0x1013 [le_bytes 2 id; le_bytes 4 0; le_bytes 8 time; guid_of caller; le_bytes 8 address] (head id time ++ guid_of caller ++ le_bytes 8 address) 42) as (R & W).
    { lia. } { unfold head. cbn [concat]. now rewrite app_nil_r, zeros4, <- !app_assoc. } { repeat (apply Forall_app; split; auto). apply le_bytes_ok. } { rewrite !app_length, HL, L1, le_bytes_length. reflexivity. } { lia. }
    split; [exact R|]. split; [rewrite <- R; exact W|]. split; [apply (not_empty_end _ [_; _; _; _]); intros X; apply (f_equal (@List.length N)) in X; rewrite le_bytes_length in X; discriminate|].
    rewrite SAME by lia. assert (D : id = 5 \/ id = 6 \/ id = 7 \/ id = 8 \/ id = 9) by lia. repeat destruct D as [->|D]; subst; reflexivity.
  - exists (qword_string_event id 0 time (guid_of caller) address []). destruct (record_is 0x1014 [le_bytes 2 id; le_bytes 4 0; le_bytes 8 time; guid_of caller; le_bytes 8 address; []; [0]] (head id time ++ guid_of caller ++ le_bytes 8 address ++ [0]) 43) as (R & W).
    { lia. } { unfold head. cbn [concat]. rewrite zeros4, <- !app_assoc. reflexivity. } { repeat (apply Forall_app; split; auto); [apply le_bytes_ok|repeat constructor]. } { rewrite !app_length, HL, L1, le_bytes_length. reflexivity. } { lia. }
    split; [exact R|]. split; [rewrite <- R; exact W|]. split; [apply (not_empty_end _ [_; _; _; _; _; _]); discriminate|].
    subst id. rewrite SAME by lia. reflexivity.
  - destruct (G3 gg E2) as (LG & FG). destruct (G4 x E1) as (BX & LX).
    exists (dual_guid_event id 0 time (peek caller) gg x). destruct (record_is 0x1012 [le_bytes 2 id; le_bytes 4 0; le_bytes 8 time; peek caller; gg; x; [0]] (head id time ++ peek caller ++ gg ++ x ++ [0]) (51 + N.of_nat (length x))) as (R & W).
    { lia. } { unfold head. cbn [concat]. rewrite zeros4, <- !app_assoc. reflexivity. } { repeat (apply Forall_app; split; auto). repeat constructor. } { rewrite !app_length, HL, L2, LG. cbn [List.length]. lia. } { lia. }
    split; [exact R|]. split; [rewrite <- R; exact W|]. split; [apply (not_empty_end _ [_; _; _; _; _; _]); discriminate|].
    rewrite SAME by lia. subst s guid. assert (M : measure dbg guid_of peek st caller (Some gg) (Some x) time address id a = if caller =? 0 then (Panic, st) else with_record dbg st (dual_guid_event id 0 time (peek caller) gg x)).
    { destruct C as [->|[->|[->| ->]]]; reflexivity. } rewrite M. destruct (N.eqb_spec caller 0); [contradiction|reflexivity].
  - exists (string_event id 0 time (peek caller) (text s)). destruct (record_is 0x1011 [le_bytes 2 id; le_bytes 4 0; le_bytes 8 time; peek caller; text s; [0]] (head id time ++ peek caller ++ text s ++ [0]) (35 + N.of_nat (length (text s)))) as (R & W).
    { lia. } { unfold head. cbn [concat]. rewrite zeros4, <- !app_assoc. reflexivity. } { repeat (apply Forall_app; split; auto). repeat constructor. } { rewrite !app_length, HL, L2. cbn [List.length]. lia. } { lia. }
    split; [exact R|]. split; [rewrite <- R; exact W|]. split; [apply (not_empty_end _ [_; _; _; _; _]); discriminate|].
    rewrite SAME by lia. assert (M : measure dbg guid_of peek st caller guid s time address id a = if caller =? 0 then (Panic, st) else with_record dbg st (string_event id 0 time (peek caller) (text s))).
    { destruct C as [->|[->|[->|[->|[->|[->| ->]]]]]]; destruct s; reflexivity. } rewrite M. destruct (N.eqb_spec caller 0); [contradiction|reflexivity].
  - exists (string_event id 0 time (guid_of caller) (text s)). destruct (record_is 0x1011 [le_bytes 2 id; le_bytes 4 0; le_bytes 8 time; guid_of caller; text s; [0]] (head id time ++ guid_of caller ++ text s ++ [0]) (35 + N.of_nat (length (text s)))) as (R & W).
    { lia. } { unfold head. cbn [concat]. rewrite zeros4, <- !app_assoc. reflexivity. } { repeat (apply Forall_app; split; auto). repeat constructor. } { rewrite !app_length, HL, L1. cbn [List.length]. lia. } { lia. }
    split; [exact R|]. split; [rewrite <- R; exact W|]. split; [apply (not_empty_end _ [_; _; _; _; _]); discriminate|].
    rewrite SAME by (intros ->; apply C; apply known_spec; reflexivity). unfold measure. assert (known_id id = false) as -> by (destruct (known_id id) eqn:K; [apply known_spec in K; contradiction|reflexivity]).
    cbn [negb]. destruct s; destruct a; try congruence; reflexivity.
Qed.

(** A measurement adds the record of the event to the table, and nothing else; if there is no room it is refused with
    OUT_OF_RESOURCES. *)
Theorem c68_measured : forall dbg guid_of peek st gs caller guid s time address identifier a id g,
  reached dbg (s_mem st) (s_table st) gs -> 56 + N.of_nat (length (stream gs)) + 255 < 2 ^ 32 -> s_count st < 2 ^ 32 - 1 ->
  sane guid_of peek caller guid s -> recorded_as caller s identifier a (Some id) ->
  event guid_of peek (if id =? 0x03 then s_count st + 1 else s_count st) caller guid s time address id a g ->
  exists x st', create_measurement dbg guid_of peek st caller guid s time address identifier a = (x, st') /\
    s_count st' = (if id =? 0x03 then s_count st + 1 else s_count st) /\
    (unpublished (s_table st) \/ g_len g <= room (s_table st) -> x = Ok tt /\ reached dbg (s_mem st') (s_table st') (gs ++ [g])) /\
    (published (s_table st) -> room (s_table st) < g_len g -> x = Err OutOfResources /\ reached dbg (s_mem st') (s_table st') gs) /\
    (unpublished (s_table st) -> s_mem st' = s_mem st) /\ (forall b, ~ in_table (s_table st) b -> s_mem st' b = s_mem st b).
Proof.
  intros dbg guid_of peek st gs caller guid s time address identifier a id g R L CL SA RA EV.
  assert (CE : counted st id = if id =? 0x03 then s_count st + 1 else s_count st).
  { unfold counted. destruct (id =? 3); [|reflexivity]. apply N.mod_small. change two32 with 4294967296. change (2 ^ 32) with 4294967296 in CL. lia. }
  rewrite <- CE in *. destruct (measure_event dbg guid_of peek st caller guid s time address id a g SA EV) as (r & RE & W & NE & M).
  unfold create_measurement. rewrite (proj1 (c68_id caller s identifier a (Some id)) RA). rewrite M. unfold with_record, counting. cbn [s_mem s_table s_count].
  assert (ST : storable r). { split; [rewrite RE; exact W|]. split; [rewrite RE; apply W|tauto]. }
  assert (FI : forall n, fits_in r n <-> g_len g <= n) by (intros n; unfold fits_in; rewrite RE; tauto).
  destruct (c67_add dbg (s_mem st) (s_table st) gs r R ST L) as (A1 & A2 & A3). rewrite RE in *.
  destruct (f_recs (s_table st)) as [l|base cap off] eqn:U.
  - assert (UN : unpublished (s_table st)) by (eexists; exact U). destruct (A1 UN) as (f' & E & _ & R'). rewrite E. cbn [s_count s_mem s_table].
    do 2 eexists. split; [reflexivity|]. split; [reflexivity|]. split; [auto|]. split; [intros (? & ? & ? & X); congruence|]. split; [reflexivity|reflexivity].
  - assert (PU : published (s_table st)) by (do 3 eexists; exact U). destruct (N.le_gt_cases (g_len g) (room (s_table st))) as [LE|GT].
    + destruct (A2 PU (proj2 (FI _) LE)) as (m' & f' & E & _ & _ & _ & R' & F). rewrite E. cbn [s_count s_mem s_table].
      do 2 eexists. split; [reflexivity|]. split; [reflexivity|]. split; [auto|]. split; [intros _ X; lia|]. split; [intros (l & X); congruence|exact F].
    + assert (NF : ~ fits_in r (room (s_table st))) by (rewrite FI; lia). destruct (A3 PU NF) as (m' & E & R' & F). rewrite E. cbn [s_count s_mem s_table].
      do 2 eexists. split; [reflexivity|]. split; [reflexivity|]. split; [intros [(l & X)|X]; [congruence|lia]|]. split; [auto|]. split; [intros (l & X); congruence|exact F].
Qed.

(** A measurement that is no event is refused and changes nothing. *)
Theorem c68_refused : forall dbg guid_of peek st caller guid s time address identifier a o, caller <> 0 ->
  recorded_as caller s identifier a o -> (forall id count g, o = Some id -> ~ event guid_of peek count caller guid s time address id a g) ->
  create_measurement dbg guid_of peek st caller guid s time address identifier a = (Err InvalidParameter, st).
Proof.
  intros dbg guid_of peek st caller guid s time address identifier a o NC RA NE. unfold create_measurement. rewrite (proj1 (c68_id caller s identifier a o) RA).
  destruct o as [id|]; [|reflexivity].
  destruct (known_id id) eqn:K.
  - apply known_spec in K. unfold known in K.
    assert (CB : id = 0x10 \/ id = 0x11 \/ id = 0x20 \/ id = 0x21).
    { destruct (N.eq_dec id 0x10); [tauto|]. destruct (N.eq_dec id 0x11); [tauto|]. destruct (N.eq_dec id 0x20); [tauto|]. destruct (N.eq_dec id 0x21); [tauto|]. exfalso.
      assert (D : (id = 1 \/ id = 2) \/ (id = 3 \/ id = 4) \/ (5 <= id <= 9) \/ id = 10 \/ (id = 0 \/ id = 0x30 \/ id = 0x31 \/ id = 0x40 \/ id = 0x41 \/ id = 0x50 \/ id = 0x51)) by lia.
      destruct D as [D|[D|[D|[D|D]]]]; eapply (NE id 0); try reflexivity; [apply ev_module|apply ev_load|apply ev_binding|apply ev_stopped|apply ev_section]; assumption. }
    assert (MS : s = None \/ guid = None).
    { destruct s as [x|]; [|auto]. destruct guid as [g|]; [|auto]. exfalso. eapply (NE id 0); [reflexivity|]. eapply ev_callback; eauto. }
    assert (M : measure dbg guid_of peek st caller guid s time address id a = (Err (PEfi InvalidParameter), st)).
    { destruct CB as [->|[->|[->| ->]]]; destruct MS as [->| ->]; try reflexivity; destruct s; reflexivity. }
    rewrite M. reflexivity.
  - assert (NK : ~ known id) by (intros X; apply known_spec in X; congruence). destruct a; try (exfalso; eapply (NE id 0); [reflexivity|]; apply ev_unknown; [exact NK|discriminate]).
    unfold measure. rewrite K. reflexivity.
Qed.

(** The address of a GUID is not checked: without one the measurement reads through a null pointer. *)
Theorem c68_null_refuted : forall dbg guid_of peek st s time address,
  create_measurement dbg guid_of peek st 0 None (Some (bytes_of s)) time address 0x30 PerfEntry = (Panic, st) /\
  (named (Some (bytes_of s)) \/ create_measurement dbg guid_of peek st 0 None (Some (bytes_of s)) time address 0 PerfStart = (Panic, st)).
Proof.
  intros. split; [reflexivity|]. destruct (is_token (Some (bytes_of s))) eqn:T; [left; apply named_spec, T|right].
  unfold create_measurement. rewrite (proj1 (c68_id 0 (Some (bytes_of s)) 0 PerfStart (Some 0x40))).
  - reflexivity.
  - change 0x40 with (start_or_end PerfStart (0x40, 0x41)). eapply as_other_name; [discriminate|reflexivity|reflexivity|]. intros X. apply named_spec in X. congruence.
Qed.

(** A name of more than 220 bytes: before publication a debug build panics, a release build returns ABORTED and the records
    can no longer be read. *)
Theorem c68_long_name_refuted : forall dbg guid_of peek st gs caller guid x time address,
  reached dbg (s_mem st) (s_table st) gs -> 56 + N.of_nat (length (stream gs)) < 2 ^ 32 -> unpublished (s_table st) -> caller <> 0 -> length (peek caller) = 16%nat -> (220 < length x)%nat ->
  exists st', create_measurement dbg guid_of peek st caller guid (Some x) time address 0x30 PerfEntry = (if dbg then Panic else Err Aborted, st') /\
    iter (buffer_of (s_mem st') (f_recs (s_table st'))) = Panic.
Proof.
  intros dbg guid_of peek st gs caller guid x time address R L U NC LP LX.
  set (r := string_event 0x30 0 time (peek caller) x). assert (T : 255 < g_len (record_of r)).
  { unfold r, string_event, record_of. cbn [p_chunks concat g_len]. rewrite !app_length, !le_bytes_length, LP. cbn [List.length]. lia. }
  destruct (c67_too_long_refuted dbg (s_mem st) (s_table st) gs r R L U T) as (f' & E & _ & _ & I).
  unfold create_measurement. change (perf_id caller (Some x) 0x30 PerfEntry) with (@Ok efi_error N 0x30).
  assert (M : measure dbg guid_of peek st caller guid (Some x) time address 0x30 PerfEntry = if caller =? 0 then (Panic, st) else with_record dbg st r) by reflexivity.
  cbv beta iota. rewrite M. destruct (N.eqb_spec caller 0); [contradiction|]. unfold with_record. rewrite E. destruct dbg; eexists; (split; [reflexivity|exact I]).
Qed.

(** ** Records of earlier phases *)

(** The data of a HOB: size of the records, image count, a flag, the records. *)
Theorem c68_hob : forall size count flag records rest, size < 2 ^ 32 -> count < 2 ^ 32 -> bytes_ok records -> size = N.of_nat (length records) ->
  parse_hob (le_bytes 4 size ++ le_bytes 4 count ++ le_bytes 4 flag ++ records ++ rest) = Ok (count, records).
Proof.
  intros size count flag records rest HS HC HB SL. unfold parse_hob.
  assert (LT : len (le_bytes 4 size ++ le_bytes 4 count ++ le_bytes 4 flag ++ records ++ rest) = 12 + size + len rest) by (rewrite !len_app, !len4; unfold len at 1; lia).
  rewrite LT. destruct (N.ltb_spec (12 + size + len rest) 12); [lia|].
  assert (A0 : le_at (le_bytes 4 size ++ le_bytes 4 count ++ le_bytes 4 flag ++ records ++ rest) 0 4 = size) by (unfold le_at; cbn [skipn]; change 4%nat with (length (le_bytes 4 size)) at 1; rewrite firstn_app_exact; apply le_val_bytes; exact HS).
  assert (A4 : le_at (le_bytes 4 size ++ le_bytes 4 count ++ le_bytes 4 flag ++ records ++ rest) 4 4 = count).
  { unfold le_at. change 4%nat with (length (le_bytes 4 size)) at 2. rewrite skipn_app_exact. change 4%nat with (length (le_bytes 4 count)) at 1. rewrite firstn_app_exact. apply le_val_bytes. exact HC. }
  rewrite A0, A4. destruct (N.ltb_spec (12 + size + len rest) (12 + size)); [lia|]. f_equal. f_equal.
  replace (le_bytes 4 size ++ le_bytes 4 count ++ le_bytes 4 flag ++ records ++ rest) with ((le_bytes 4 size ++ le_bytes 4 count ++ le_bytes 4 flag) ++ records ++ rest) by (rewrite <- !app_assoc; reflexivity).
  change 12%nat with (length (le_bytes 4 size ++ le_bytes 4 count ++ le_bytes 4 flag)). rewrite skipn_app_exact. subst size. rewrite Nat2N.id. apply firstn_app_exact.
Qed.

(** A HOB that states more than it has is not refused: parsing it panics. *)
Theorem c68_hob_refuted : forall bytes, bytes_ok bytes -> (12 <= length bytes)%nat -> N.of_nat (length bytes) < 12 + le_val (firstn 4 bytes) -> parse_hob bytes = Panic.
Proof.
  intros bytes HB L S1. unfold parse_hob, len. destruct (N.ltb_spec (N.of_nat (length bytes)) 12); [lia|]. unfold le_at. cbn [skipn].
  destruct (N.ltb_spec (N.of_nat (length bytes)) (12 + le_val (firstn 4 bytes))); [reflexivity|lia].
Qed.

(** Merging the HOBs gives all their records, in order, and the sum of their image counts. *)
Theorem c68_merge : forall dbg m hobs, Forall (fun h => Forall well_formed (snd h)) hobs -> fold_right (fun h n => fst h + n) 0 hobs < 2 ^ 32 ->
  merge_hobs dbg m 0 (Unpublished []) (map (fun h => (fst h, stream (snd h))) hobs) = Ok (fold_right (fun h n => fst h + n) 0 hobs, Unpublished (stream (concat (map snd hobs)))).
Proof.
  intros dbg m hobs. enough (G : forall c l, Forall (fun h => Forall well_formed (snd h)) hobs -> c + fold_right (fun h n => fst h + n) 0 hobs < 2 ^ 32 ->
    merge_hobs dbg m c (Unpublished l) (map (fun h => (fst h, stream (snd h))) hobs) = Ok (c + fold_right (fun h n => fst h + n) 0 hobs, Unpublished (l ++ stream (concat (map snd hobs))))) by (intros W L; exact (G 0 [] W L)).
  induction hobs as [|(c0, gs) hobs IH]; intros c l W L; cbn [map concat fst snd merge_hobs fold_right] in *.
  { rewrite N.add_0_r, app_nil_r. reflexivity. }
  inversion W as [|? ? W1 W2]; subst. cbn [snd] in W1. unfold add32. change two32 with (2 ^ 32). destruct (N.ltb_spec (c + c0) (2 ^ 32)); [|lia]. cbn [bind].
  rewrite iter_stream, push_all_list by exact W1. cbn [bind]. rewrite IH by (auto; lia). rewrite stream_app, app_assoc, N.add_assoc. reflexivity.
Qed.

(** ** Records of management mode *)

(** If management mode hands out its records, all of them arrive. *)
Theorem c68_fetch : forall ask data, serves ask data -> fetch (length data) ask (N.of_nat (length data)) [] = Ok (Some data).
Proof.
  intros ask data SV. enough (G : forall fuel k, (length data <= fuel + k)%nat -> (k <= length data)%nat -> fetch fuel ask (N.of_nat (length data)) (firstn k data) = Ok (Some data)) by (apply (G (length data) 0%nat); lia).
  induction fuel as [|fuel IH]; intros k L1 L2.
  - assert (k = length data) as -> by lia. rewrite firstn_all. cbn [fetch]. unfold len. destruct (N.ltb_spec (N.of_nat (length data)) (N.of_nat (length data))); [lia|reflexivity].
  - cbn [fetch]. assert (LK : len (firstn k data) = N.of_nat k) by (unfold len; rewrite firstn_length; lia). rewrite LK. destruct (N.ltb_spec (N.of_nat k) (N.of_nat (length data))).
    2:{ assert (k = length data) as -> by lia. now rewrite firstn_all. }
    destruct (SV (N.of_nat k)) as (size & bytes & E & S1 & S2 & S3 & S4); [lia|]. rewrite E. destruct (N.ltb_spec 1024 size); [lia|]. rewrite S4, Nat2N.id.
    assert (C : firstn k data ++ firstn (N.to_nat size) (skipn k data) = firstn (k + N.to_nat size) data).
    { rewrite <- (firstn_skipn k data) at 3. rewrite firstn_app, firstn_length. replace (k + N.to_nat size - Nat.min k (length data))%nat with (N.to_nat size) by lia.
      rewrite firstn_firstn. now replace (Nat.min (k + N.to_nat size) k) with k by lia. }
    rewrite C. apply IH; lia.
Qed.

(** If it answers with success and no bytes, asking never ends; if it states more than 1024, the asking panics. *)
Theorem c68_fetch_hangs_refuted : forall fuel ask total got bytes, len got < total -> ask (len got) = MmData 0 bytes -> fetch fuel ask total got = Err tt.
Proof.
  intros fuel ask total got bytes L E. induction fuel as [|fuel IH]; cbn [fetch]; (destruct (N.ltb_spec (len got) total); [|lia]); [reflexivity|].
  rewrite E. cbn [N.ltb N.to_nat firstn]. change (1024 <? 0) with false. cbv iota. rewrite app_nil_r. exact IH.
Qed.
Theorem c68_fetch_panics_refuted : forall fuel ask total got size bytes, len got < total -> ask (len got) = MmData size bytes -> 1024 < size -> fetch (Datatypes.S fuel) ask total got = Panic.
Proof. intros fuel ask total got size bytes L E B. cbn [fetch]. destruct (N.ltb_spec (len got) total); [|lia]. rewrite E. destruct (N.ltb_spec 1024 size); [reflexivity|lia]. Qed.

(** Records are then added in order; those that do not fit are left out. *)
Theorem c68_mm_records : forall dbg gs m f old, reached dbg m f old -> Forall well_formed gs -> 56 + N.of_nat (length (stream old)) + N.of_nat (length (stream gs)) + 255 < 2 ^ 32 ->
  exists m' f' some, add_all dbg m f gs = Ok (m', f') /\ sublist some gs /\ reached dbg m' f' (old ++ some) /\ (unpublished f -> some = gs).
Proof.
  intros dbg. induction gs as [|g gs IH]; intros m f old R W L; cbn [add_all].
  { exists m, f, []. split; [reflexivity|]. split; [constructor|]. rewrite app_nil_r. auto. }
  inversion W as [|? ? W1 W2]; subst. destruct (generic_of g W1) as (E & ST). change (stream (g :: gs)) with (stored g ++ stream gs) in L. rewrite app_length in L.
  destruct (c67_add dbg m f old (generic g) R ST ltac:(lia)) as (A1 & A2 & A3). rewrite E in *. assert (SL : length (stream (old ++ [g])) = (length (stream old) + length (stored g))%nat) by (rewrite stream_app, stream_one, app_length; reflexivity).
  destruct (f_recs f) as [l|base cap off] eqn:U.
  - destruct (A1 (ex_intro _ _ U)) as (f' & EA & U' & R'). rewrite EA. destruct (IH m f' (old ++ [g]) R' W2) as (m2 & f2 & some & E2 & S2 & R2 & U2); [rewrite SL; lia|].
    exists m2, f2, (g :: some). split; [exact E2|]. split; [constructor; exact S2|]. split; [rewrite <- app_assoc in R2; exact R2|]. intros _. f_equal. auto.
  - assert (PU : published f) by (do 3 eexists; exact U). destruct (fits_in_dec (generic g) (room f)) as [F|F].
    + destruct (A2 PU F) as (m' & f' & EA & _ & _ & _ & R' & _). rewrite EA. destruct (IH m' f' (old ++ [g]) R' W2) as (m2 & f2 & some & E2 & S2 & R2 & U2); [rewrite SL; lia|].
      exists m2, f2, (g :: some). split; [exact E2|]. split; [constructor; exact S2|]. split; [rewrite <- app_assoc in R2; exact R2|]. intros (l & X). congruence.
    + destruct (A3 PU F) as (m' & EA & R' & _). rewrite EA. destruct (IH m' f old R' W2) as (m2 & f2 & some & E2 & S2 & R2 & U2); [lia|].
      exists m2, f2, some. split; [exact E2|]. split; [constructor; exact S2|]. split; [exact R2|]. intros (l & X). congruence.
Qed.

(** ** Cases *)
Definition demo_guid : list N := [1; 2; 3; 4; 5; 6; 7; 8; 9; 10; 11; 12; 13; 14; 15; 16].
Definition guids : N -> list N := fun _ => demo_guid.
Definition begin : pstate := PState 0 (fun _ => 7) fbpt_new.

(** A start of an image, publication, and the end of a section named "Boot". *)
Definition first (dbg : bool) : pstate := snd (create_measurement dbg guids guids begin 0x5000 None (Some (bytes_of "StartImage")) 1000 0 0 PerfStart).
Definition shown (dbg : bool) : pstate :=
  let st := first dbg in
  let '(_, m', f') := report_table dbg (fun a _ => Some a) (fun _ => Err NotFound) (s_mem st) (s_table st) (Some 0x8000) in PState (s_count st) m' f'.
Definition second (dbg : bool) : pstate := snd (create_measurement dbg guids guids (shown dbg) 0x5000 None (Some (bytes_of "Boot")) 2000 0 0x61 PerfEnd).

Definition rec1 : grec := GRec 0x1010 34 1 (head 1 1000 ++ demo_guid).
Definition rec2 : grec := GRec 0x1011 39 1 (head 0x61 2000 ++ demo_guid ++ bytes_of "Boot" ++ [0]).

Example demo_sane : sane guids guids 0x5000 None (Some (bytes_of "StartImage")) /\ sane guids guids 0x5000 None (Some (bytes_of "Boot")).
Proof.
  assert (G : is_guid demo_guid) by (split; [reflexivity|repeat constructor]).
  split; (split; [exact G|]); (split; [exact G|]); (split; [discriminate|]); intros x [= <-]; (split; [vm_compute; repeat constructor|vm_compute; lia]).
Qed.

Example demo_table : forall dbg,
  reached dbg (s_mem (first dbg)) (s_table (first dbg)) [rec1] /\ reached dbg (s_mem (shown dbg)) (s_table (shown dbg)) [rec1] /\ published (s_table (shown dbg)) /\
  reached dbg (s_mem (second dbg)) (s_table (second dbg)) [rec1; rec2].
Proof.
  intros dbg. destruct demo_sane as (S1 & S2).
  assert (R1 : reached dbg (s_mem (first dbg)) (s_table (first dbg)) [rec1]).
  { destruct (c68_measured dbg guids guids begin [] 0x5000 None (Some (bytes_of "StartImage")) 1000 0 0 PerfStart 1 rec1) as (x & st' & E & _ & A & _).
    - apply r_new.
    - reflexivity.
    - reflexivity.
    - exact S1.
    - apply c68_id. reflexivity.
    - apply (ev_module guids guids 0 0x5000 None (Some (bytes_of "StartImage")) 1000 0 1 PerfStart). left. reflexivity.
    - unfold first. rewrite E. destruct A as (_ & R); [left; eexists; reflexivity|exact R]. }
  assert (U1 : unpublished (s_table (first dbg))) by (destruct dbg; eexists; reflexivity).
  assert (L1 : 56 + N.of_nat (length (stream [rec1])) < 2 ^ 32) by reflexivity.
  destruct (c67_report dbg (fun a _ => Some a) (fun _ => Err NotFound) _ _ [rec1] (Some 0x8000) (Ok 0x8000) R1 L1 U1) as (n & N1 & N2).
  destruct N2 as (N2 & _); [left; exists 0x8000, 0x8000; auto|]. destruct (N2 0x8000 eq_refl) as (m' & f' & E & P & _ & R2 & _ & RM & _).
  assert (SH : shown dbg = PState (s_count (first dbg)) m' f') by (unfold shown; cbv zeta; rewrite E; reflexivity).
  split; [exact R1|]. rewrite SH. cbn [s_mem s_table]. split; [exact R2|]. split; [exact P|].
  destruct (c68_measured dbg guids guids (PState (s_count (first dbg)) m' f') [rec1] 0x5000 None (Some (bytes_of "Boot")) 2000 0 0x61 PerfEnd 0x61 rec2) as (x & st' & E2 & _ & A & _).
  - exact R2.
  - reflexivity.
  - destruct dbg; reflexivity.
  - exact S2.
  - apply c68_id. reflexivity.
  - assert (EV : event guids guids (s_count (first dbg)) 0x5000 None (Some (bytes_of "Boot")) 2000 0 0x61 PerfEnd (GRec 0x1011 (35 + N.of_nat (length (text (Some (bytes_of "Boot"))))) 1 (head 0x61 2000 ++ guids 0x5000 ++ text (Some (bytes_of "Boot")) ++ [0]))).
    { apply ev_unknown; [|discriminate]. intros K. apply known_spec in K. discriminate. } exact EV.
  - unfold second. rewrite SH, E2. destruct A as (_ & R); [right; cbn [s_table]; change (g_len rec2) with 39; lia|exact R].
Qed.

(** Two hundred and twenty-one letters after publication: success is reported and the records can no longer be read. *)
Definition long_name : list N := repeat 65 221.
Theorem c68_long_name_published_refuted : forall dbg, exists st',
  create_measurement dbg guids guids (shown dbg) 0x5000 None (Some long_name) 3000 0 0x30 PerfEntry = (Ok tt, st') /\
  iter (buffer_of (s_mem st') (f_recs (s_table st'))) = Panic /\ table_length (s_mem st') (s_table st') = 56 + 34 + 256.
Proof.
  intros dbg. eexists. split; [rewrite (surjective_pairing (create_measurement _ _ _ _ _ _ _ _ _ _ _)); apply f_equal2; [destruct dbg; vm_compute; reflexivity|reflexivity]|].
  destruct dbg; split; vm_compute; reflexivity.
Qed.

Example demo_serves : forall data, bytes_ok data -> (0 < length data <= 1024)%nat -> serves (fun off => MmData (N.of_nat (length data) - off) (skipn (N.to_nat off) data ++ repeat 0 (1024 - length data + N.to_nat off))) data.
Proof.
  intros data HB L off HO. do 2 eexists. split; [reflexivity|]. split; [lia|]. split; [lia|]. split; [rewrite app_length, skipn_length, repeat_length; lia|].
  rewrite firstn_app, skipn_length. replace (N.to_nat (N.of_nat (length data) - off) - (length data - N.to_nat off))%nat with 0%nat by lia. cbn [firstn]. apply app_nil_r.
Qed.

Print Assumptions c67_table.
Print Assumptions c67_add.
Print Assumptions c67_report.
Print Assumptions c68_measured.
Print Assumptions c68_mm_records.
