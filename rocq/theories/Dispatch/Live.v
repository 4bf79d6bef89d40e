(** The dispatcher comes to an end, and what it leaves then cannot run. *)
From Coq Require Import Permutation.
From Verif Require Import Base.Prelude Base.Bytes Depex.Model Depex.Spec Depex.Proofs Dispatch.Model Dispatch.Spec Dispatch.Proofs Dispatch.Main.
Local Open Scope nat_scope.

(** ** Termination *)
Definition size (w : world) : nat := length (pool w) + length (w_images w).
Definition plain_action (a : action) : Prop := match a with Volumes _ | Dispatch => False | _ => True end.
Definition image_action (a : action) : Prop := match a with Volumes _ => False | _ => True end.
Definition ends (nested : world -> run (res derr unit)) (n : nat) : Prop :=
  forall w, size w < n -> exists r w', nested w = (Done r, w') /\ size w' <= size w.

Lemma schedule_size : forall w h f, size (core_schedule w h f) = size w.
Proof.
  intros w h f. unfold core_schedule. destruct (schedule_in h f (w_pending w)) as [l|] eqn:S; [|reflexivity].
  destruct (schedule_in_inv _ _ _ _ S) as (l1 & d & l2 & e & E & -> & _). unfold size, pool. cbn [emit set_pending w_pending w_before w_after w_images]. rewrite E, !app_length. cbn [length]. lia.
Qed.
Lemma trust_size : forall w h f, size (core_trust w h f) = size w.
Proof.
  intros w h f. unfold core_trust. destruct (trust_in h f (w_pending w)) as [l|] eqn:S; [|reflexivity].
  destruct (trust_in_inv _ _ _ _ S) as (l1 & d & l2 & E & -> & _). unfold size, pool. cbn [emit set_pending w_pending w_before w_after w_images]. rewrite E, !app_length. cbn [length]. lia.
Qed.
Lemma acts_plain : forall nested l w, Forall plain_action l -> exists w', acts nested l w = (Done tt, w') /\ size w' <= size w.
Proof.
  intros nested. induction l as [|a l IH]; intros w F; [exists w; split; auto|]. inversion F as [|? ? A F']; subst.
  destruct a as [g|g|v|h f|h f|]; cbn [acts]; try destruct A.
  - destruct (IH (set_protocols w (g :: w_protocols w)) F') as (w' & E & L). exists w'. split; [exact E|exact L].
  - destruct (IH (set_protocols w (filter (fun x => negb (bytes_eqb g x)) (w_protocols w))) F') as (w' & E & L). exists w'. split; [exact E|exact L].
  - destruct (IH (core_schedule w h f) F') as (w' & E & L). exists w'. split; [exact E|]. now rewrite schedule_size in L.
  - destruct (IH (core_trust w h f) F') as (w' & E & L). exists w'. split; [exact E|]. now rewrite trust_size in L.
Qed.
Lemma acts_image : forall nested n l w, ends nested n -> Forall image_action l -> size w < n -> exists w', acts nested l w = (Done tt, w') /\ size w' <= size w.
Proof.
  intros nested n l w N. revert w. induction l as [|a l IH]; intros w F SZ; [exists w; split; auto|]. inversion F as [|? ? A F']; subst.
  destruct a as [g|g|v|h f|h f|]; cbn [acts]; try destruct A.
  - destruct (IH (set_protocols w (g :: w_protocols w)) F' SZ) as (w' & E & L). exists w'. split; [exact E|exact L].
  - destruct (IH (set_protocols w (filter (fun x => negb (bytes_eqb g x)) (w_protocols w))) F' SZ) as (w' & E & L). exists w'. split; [exact E|exact L].
  - destruct (IH (core_schedule w h f) F') as (w' & E & L); [now rewrite schedule_size|]. exists w'. split; [exact E|]. now rewrite schedule_size in L.
  - destruct (IH (core_trust w h f) F') as (w' & E & L); [now rewrite trust_size|]. exists w'. split; [exact E|]. now rewrite trust_size in L.
  - destruct (N w SZ) as (r & w1 & E1 & L1). rewrite E1. cbn [and_then]. assert (Q : size (emit w1 (EvReturn r)) = size w1) by reflexivity.
    destruct (IH (emit w1 (EvReturn r)) F') as (w' & E & L); [lia|]. exists w'. split; [exact E|lia].
Qed.

Lemma push_assoc_len : forall m g d, length (all_of (push_assoc m g d)) = S (length (all_of m)).
Proof. intros m g d. now rewrite (Permutation_length (push_assoc_perm m g d)). Qed.
Lemma sort_out_len : forall ps arch cands ready pend bef aft ready' pend' bef' aft', sort_out ps arch cands ready pend bef aft = (ready', pend', bef', aft') ->
  length ready' + length pend' + length (all_of bef') + length (all_of aft') = length cands + length ready + length pend + length (all_of bef) + length (all_of aft).
Proof.
  intros ps arch. induction cands as [|c cands IH]; intros ready pend bef aft ready' pend' bef' aft' H; cbn [sort_out] in H; [injection H as <- <- <- <-; cbn [length]; lia|].
  destruct (evaluate ps arch c) as (ok, c'). cbn [length]. destruct ok; [apply IH in H; rewrite app_length in H; cbn [length] in H; lia|].
  destruct (match d_depex c' with Some e => is_associated e | None => None end) as [[g|g]|]; apply IH in H; rewrite ?push_assoc_len, ?app_length in H; cbn [length] in H; lia.
Qed.
Lemma line_up_len : forall ready bef aft s bef' aft', line_up ready bef aft = (s, bef', aft') ->
  length s + length (all_of bef') + length (all_of aft') = length ready + length (all_of bef) + length (all_of aft).
Proof.
  induction ready as [|d ready IH]; intros bef aft s bef' aft' H; cbn [line_up] in H; [injection H as <- <- <-; reflexivity|].
  destruct (take_assoc bef (d_file d)) as (b, bef1) eqn:T1. destruct (take_assoc aft (d_file d)) as (a, aft1) eqn:T2.
  destruct (line_up ready bef1 aft1) as ((r, bef2), aft2) eqn:L. injection H as <- <- <-. apply IH in L.
  apply take_assoc_perm, Permutation_length in T1, T2. rewrite app_length in T1, T2. rewrite app_length. cbn [length]. rewrite app_length. lia.
Qed.

Section Ends.
  Variables (o : oracle) (nested : world -> run (res derr unit)) (n : nat).
  Hypothesis CN : forall evs, Forall plain_action (o_notify o evs).
  Hypothesis CI : forall evs, Forall image_action (o_image o evs).
  Hypothesis NE : ends nested n.

  Lemma set_pending_size : forall w d, size (set_pending w (w_pending w ++ [d])) = S (size w).
  Proof. intros w d. unfold size, pool. cbn [set_pending w_pending w_before w_after w_images]. rewrite !app_length. cbn [length]. lia. Qed.

  Lemma run_driver_ends : forall p d w, size w < n -> exists b w', run_driver o nested p d w = (Done b, w') /\ size w' <= size w + (if b then 0 else 1).
  Proof.
    intros p d w SZ. unfold run_driver. set (w1 := emit w (EvTry p (d_id d))). assert (S1 : size w1 = size w) by reflexivity.
    assert (K : forall d' w2, size w2 <= size w -> exists b w', (if d_image d' then match d_status d' with
        | SSuccess => and_then (acts nested (o_image o (w_events (emit w2 (EvStart p (d_id d'))))) (emit w2 (EvStart p (d_id d')))) (fun _ w => (Done true, w))
        | SViolation => and_then (yield o nested (set_pending w2 (w_pending w2 ++ [d']))) (fun _ w => (Done false, w))
        | _ => (Done false, w2) end else (Done false, w2)) = (Done b, w') /\ size w' <= size w + (if b then 0 else 1)).
    { intros d' w2 S2. destruct (d_image d'); [|exists false, w2; split; [reflexivity|lia]]. destruct (d_status d').
      - exists false, w2. split; [reflexivity|lia].
      - assert (Q : size (emit w2 (EvStart p (d_id d'))) = size w2) by reflexivity.
        destruct (acts_image nested n (o_image o (w_events (emit w2 (EvStart p (d_id d'))))) (emit w2 (EvStart p (d_id d'))) NE (CI _)) as (w3 & E & L); [lia|].
        rewrite E. exists true, w3. split; [reflexivity|lia].
      - set (w3 := set_pending w2 (w_pending w2 ++ [d'])). unfold yield. destruct (acts_plain nested (o_notify o (w_events w3)) w3 (CN _)) as (w4 & E & L). rewrite E. exists false, w4. split; [reflexivity|].
        unfold w3 in L. rewrite set_pending_size in L. lia.
      - exists false, w2. split; [reflexivity|lia]. }
    destruct (d_image d) eqn:DI.
    - cbn [and_then]. apply K. lia.
    - unfold yield at 1. destruct (acts_plain nested (o_notify o (w_events w1)) w1 (CN _)) as (w2 & E & L). rewrite E. cbn [and_then]. apply K. change (size w2 <= size w). lia.
  Qed.

  Lemma run_all_ends : forall p l attempted w, size w + length l <= n -> exists b w', run_all o nested p l attempted w = (Done b, w') /\ size w' <= size w + length l /\
    (attempted = false -> b = true -> size w' < size w + length l).
  Proof.
    intros p. induction l as [|d l IH]; intros attempted w SZ; cbn [run_all length] in *; [exists attempted, w; split; [reflexivity|]; split; [lia|congruence]|].
    destruct (run_driver_ends p d w) as (b & w1 & E & L); [lia|]. rewrite E. cbn [and_then]. destruct (IH (attempted || b) w1) as (b' & w2 & E2 & L2 & S2); [destruct b; lia|].
    exists b', w2. split; [exact E2|]. split; [destruct b; lia|]. intros -> B'. destruct b; [lia|]. specialize (S2 eq_refl B'). lia.
  Qed.

  Lemma install_sections_size : forall k attempted w, size (snd (install_sections o k attempted w)) = size w.
  Proof. induction k as [|k IH]; intros attempted w; cbn [install_sections]; [reflexivity|]. rewrite IH. reflexivity. Qed.
  Lemma install_images_ends : forall l attempted w, let '(b, w') := install_images o l attempted w in size w' <= size w + length l /\ (attempted = false -> b = true -> size w' < size w + length l).
  Proof.
    induction l as [|c l IH]; intros attempted w; cbn [install_images length]; [split; [lia|congruence]|].
    destruct (match i_depex c with Some e => _ | None => _ end) as (ok, e). destruct (ok && o_auth o (w_events w)).
    - pose proof (install_sections_size (i_sections c) attempted w) as Q. destruct (install_sections o (i_sections c) attempted w) as (a, w1). cbn [snd] in Q.
      specialize (IH a w1). destruct (install_images o l a w1) as (b, w2). destruct IH as (L & _). split; [lia|]. intros _ _. lia.
    - set (w1 := set_images w _). assert (Q : size w1 = S (size w)).
      { unfold size, w1. cbn [set_images w_images]. change (pool (set_images w ?x)) with (pool w). rewrite app_length. cbn [length]. lia. }
      specialize (IH attempted w1). destruct (install_images o l attempted w1) as (b, w2). destruct IH as (L & S). split; [lia|]. intros A B. specialize (S A B). lia.
  Qed.

  Lemma plan_size : forall w s w', plan w = (s, w') -> size w' + length s = size w.
  Proof.
    intros w s w' H. unfold plan in H.
    set (arch := if w_arch w then true else fst (eval (w_protocols w) (depex_from ALL_ARCH_DEPEX))) in *.
    destruct (sort_out (w_protocols w) arch (w_pending w) [] [] (w_before w) (w_after w)) as (((ready, pend), bef), aft) eqn:SO.
    destruct (line_up ready bef aft) as ((s0, bef'), aft') eqn:LU. injection H as <- <-.
    pose proof (sort_out_len _ _ _ _ _ _ _ _ _ _ _ SO) as P1. pose proof (line_up_len _ _ _ _ _ _ LU) as P2. cbn [length] in P1.
    unfold size. rewrite !pool_eq. cbn [w_pending w_before w_after w_images]. rewrite !app_length. lia.
  Qed.

  Lemma dispatch_ends : forall w, size w <= n ->
    exists r w', dispatch o nested w = (Done r, w') /\ size w' <= size w /\ (r = Ok true -> size w' < size w) /\ r <> Panic.
  Proof.
    intros w SZ. unfold dispatch. destruct (w_executing w); [exists (Err DAlreadyStarted), w; split; [reflexivity|]; split; [lia|]; split; discriminate|]. unfold yield at 1.
    destruct (acts_plain nested (o_notify o (w_events w)) w (CN _)) as (w1 & E1 & L1). rewrite E1. cbn [and_then].
    destruct (plan w1) as (s, w2) eqn:PL. pose proof (plan_size w1 s w2 PL) as L2.
    unfold yield at 1. destruct (acts_plain nested (o_notify o (w_events w2)) w2 (CN _)) as (w3 & E3 & L3). rewrite E3. cbn [and_then].
    destruct (run_all_ends (w_pass w1) s false w3) as (a & w4 & E4 & L4 & S4); [lia|]. rewrite E4. cbn [and_then].
    assert (Q : size (set_images w4 []) + length (w_images w4) = size w4) by (unfold size; cbn [set_images w_images length]; change (pool (set_images w4 [])) with (pool w4); lia).
    pose proof (install_images_ends (w_images w4) a (set_images w4 [])) as R. destruct (install_images o (w_images w4) a (set_images w4 [])) as (a', w5). destruct R as (L5 & S5).
    unfold yield. destruct (acts_plain nested (o_notify o (w_events w5)) w5 (CN _)) as (w6 & E6 & L6). rewrite E6. cbn [and_then]. exists (Ok a'), w6. split; [reflexivity|]. split; [lia|].
    split; [|discriminate]. intros A. injection A as A. destruct a; [specialize (S4 eq_refl eq_refl); lia|]. specialize (S5 eq_refl A). lia.
  Qed.
End Ends.

(** Fuel above the number of drivers and volume images held is enough. *)
Lemma core_dispatcher_ends : forall o, (forall evs, Forall plain_action (o_notify o evs)) -> (forall evs, Forall image_action (o_image o evs)) ->
  forall fuel something w, size w < fuel -> exists r w', core_dispatcher o fuel something w = (Done r, w') /\ size w' <= size w.
Proof.
  intros o CN CI. induction fuel as [|f IH]; intros something w SZ; [lia|]. cbn [core_dispatcher].
  destruct (w_executing w); [eexists _, w; split; [reflexivity|lia]|].
  assert (NE : ends (core_dispatcher o f false) f) by (intros x X; apply IH; exact X).
  destruct (dispatch_ends o (core_dispatcher o f false) f CN CI NE w) as (r & w1 & E & L & S & NP); [lia|]. rewrite E. cbn [and_then].
  destruct r as [[|]|e|]; [|eexists _, w1; split; [reflexivity|lia]|eexists _, w1; split; [reflexivity|lia]|congruence].
  specialize (S eq_refl). destruct (IH true w1) as (r & w2 & E2 & L2); [lia|]. exists r, w2. split; [exact E2|lia].
Qed.

(** ** What is left *)
Lemma sort_out_left : forall ps arch cands ready pend bef aft ready' pend' bef' aft', sort_out ps arch cands ready pend bef aft = (ready', pend', bef', aft') ->
  Forall (fun d => In d pend \/ exists c, In c cands /\ evaluate ps arch c = (false, d) /\ assoc_of d = None) pend'.
Proof.
  intros ps arch. induction cands as [|c cands IH]; intros ready pend bef aft ready' pend' bef' aft' H; cbn [sort_out] in H.
  - injection H as <- <- <- <-. apply Forall_forall. auto.
  - destruct (evaluate ps arch c) as (ok, c') eqn:EV.
    assert (W : forall p0, Forall (fun d => In d p0 \/ exists c0, In c0 cands /\ evaluate ps arch c0 = (false, d) /\ assoc_of d = None) pend' ->
      (forall d, In d p0 -> In d pend \/ (d = c' /\ ok = false /\ assoc_of c' = None)) ->
      Forall (fun d => In d pend \/ exists c0, In c0 (c :: cands) /\ evaluate ps arch c0 = (false, d) /\ assoc_of d = None) pend').
    { intros p0 F S. eapply Forall_impl; [|exact F]. intros d [X|(c0 & X & Y)].
      - destruct (S d X) as [Z|(-> & -> & Z)]; [now left|right]. exists c. split; [now left|]. split; assumption.
      - right. exists c0. split; [now right|exact Y]. }
    destruct ok; [apply IH in H; apply (W _ H); auto|]. fold (assoc_of c') in H. destruct (assoc_of c') as [[g|g]|] eqn:AS; apply IH in H; apply (W _ H); auto.
    intros d X. apply in_app_or in X. destruct X as [X|[->|[]]]; auto.
Qed.

(** A depex that says BEFORE or AFTER keeps saying so. *)
Lemma says_assoc : forall evs fv file dx e dep, evolved evs fv file dx e -> says dx dep -> associated dep -> exists e', e = Some e' /\ is_associated e' <> None.
Proof.
  intros evs fv file dx e dep EV S A. destruct S as [|x tail W|x tail W|g W|g W]; cbn [associated] in A; try destruct A; (destruct e as [e|]; cbn [evolved] in EV; [|destruct EV]).
  - exists e. split; [reflexivity|]. pose proof (associated_before g [8%N] W) as AB. destruct (before_bytes g W) as (u & B). assert (NS : is_sor (depex_from (0%N :: g ++ [8%N])) = false) by (rewrite B; reflexivity).
    destruct (evolves_plain _ _ _ _ _ EV NS) as (old & _ & _ & _ & Q). rewrite Q, AB. discriminate.
  - exists e. split; [reflexivity|]. pose proof (associated_after g [8%N] W) as AB. destruct (after_bytes g W) as (u & B). assert (NS : is_sor (depex_from (1%N :: g ++ [8%N])) = false) by (rewrite B; reflexivity).
    destruct (evolves_plain _ _ _ _ _ EV NS) as (old & _ & _ & _ & Q). rewrite Q, AB. discriminate.
Qed.

(** What the dispatcher holds, told by driver. *)
Definition stuck (evs : list event) (now : list bytes) (p : nat) (d : driver) : Prop :=
  forall dx dep, In (EvFound (d_id d) (d_fv d) (d_file d) dx) evs -> says dx dep ->
    let fails e := exists old, Forall (seen evs) old /\ ~ holds (fun g => In g now \/ exists ps, In ps old /\ In g ps) e in
    match dep with
    | DArch => ~ incl arch_protocols now
    | DExpr e => fails e
    | DOnRequest e => (exists e', d_depex d = Some e' /\ is_sor e' = true) \/ fails e
    | DBefore g | DAfter g => forall id' fv' dx' dep', In (EvFound id' fv' g dx') evs -> says dx' dep' -> In id' (tried p evs) -> associated dep'
    end.

Lemma plan_left : forall frame w s w', Inv frame w -> plan w = (s, w') ->
  forall evs, incl (w_events w') evs -> NoDup (found_ids evs) -> tried (w_pass w) evs = ids s -> Forall (stuck evs (w_protocols w) (w_pass w)) (pool w').
Proof.
  intros frame w s w' I PL evs INC ND TRD. pose proof (plan_ok _ _ _ _ I PL) as (I' & _).
  unfold plan in PL. set (ps := w_protocols w) in *.
  set (arch := if w_arch w then true else fst (eval ps (depex_from ALL_ARCH_DEPEX))) in *.
  destruct (sort_out ps arch (w_pending w) [] [] (w_before w) (w_after w)) as (((ready, pend), bef), aft) eqn:SO.
  destruct (line_up ready bef aft) as ((s0, bef'), aft') eqn:LU. injection PL as <- <-.
  set (p := w_pass w) in *. set (w' := World _ _ _ _ _ _ _ _ _ _ _) in *.
  destruct (sort_out_ok _ _ _ _ _ _ _ _ _ _ _ SO (i_before _ _ I) (i_after _ _ I)) as (_ & B1 & A1 & RD).
  destruct (line_up_ok _ _ _ _ _ _ LU B1 A1) as (_ & B2 & A2 & gs & SE & MID & GO).
  destruct (line_up_gone _ _ _ _ _ _ LU) as (GB & GA).
  pose proof (sort_out_left _ _ _ _ _ _ _ _ _ _ _ SO) as PD.
  assert (UN : forall id fv file dx fv' file' dx', In (EvFound id fv file dx) evs -> In (EvFound id fv' file' dx') evs -> fv = fv' /\ file = file' /\ dx = dx') by (intros; eapply found_unique; eassumption).
  (* a driver gone through whose file is not one of the ready ones is BEFORE or AFTER another *)
  assert (CH : forall g id' fv' dx' dep', ~ In g (map d_file ready) -> In (EvFound id' fv' g dx') evs -> says dx' dep' -> In id' (tried p evs) -> associated dep').
  { intros g id' fv' dx' dep' NG F S T. rewrite TRD in T. apply in_map_iff in T. destruct T as (x & <- & X).
    pose proof (i_tracked _ _ I') as TK. rewrite !Forall_app in TK. destruct TK as (_ & TK & _). rewrite Forall_forall in TK. destruct (TK x X) as (dx2 & F2 & EV).
    destruct (UN _ _ _ _ _ _ _ F (INC _ F2)) as (-> & -> & ->). rewrite SE in X. apply in_concat in X. destruct X as (m & M & X). apply in_map_iff in M. destruct M as (gr & <- & GR).
    rewrite Forall_forall in GO. destruct (GO gr GR) as (FB & FA). unfold dmembers in X. apply in_app_or in X.
    assert (AS : forall a, assoc_of x = Some a -> associated dep').
    { intros a A. unfold assoc_of in A. destruct (d_depex x) as [e|] eqn:DX; [|discriminate]. rewrite (assoc_says _ _ _ _ _ _ _ EV A S). destruct a; exact Logic.I. }
    rewrite Forall_forall in FB, FA. destruct X as [X|[X|X]]; [exact (AS _ (FB x X))| |exact (AS _ (FA x X))].
    subst x. destruct NG. apply in_map. rewrite <- MID. now apply in_map. }
  rewrite pool_eq. cbn [w' w_pending w_before w_after]. rewrite !Forall_app. split; [|split].
  - rewrite Forall_forall in PD |- *. intros d D. destruct (PD d D) as [[]|(c & C1 & C2 & C3)]. intros dx dep F S fails.
    assert (D' : tracked (w_events w') d).
    { pose proof (i_tracked _ _ I') as TK. rewrite pool_eq, !Forall_app in TK. destruct TK as ((TK & _) & _). cbn [w' w_pending] in TK. rewrite Forall_forall in TK. now apply TK. }
    destruct D' as (dx1 & F1 & EV1). destruct (UN _ _ _ _ _ _ _ F (INC _ F1)) as (_ & _ & <-).
    pose proof (i_tracked _ _ I) as TK. rewrite pool_eq, !Forall_app in TK. destruct TK as ((TK & _) & _). rewrite Forall_forall in TK. destruct (TK c C1) as (dx2 & F2 & EV2).
    assert (INW : incl (w_events w) evs) by (intros y Y; apply INC; now right).
    unfold evaluate in C2. destruct (d_depex c) as [x|] eqn:DX.
    + destruct (eval ps x) as (r, x') eqn:EX. injection C2 as -> C2. subst d. cbn [d_id d_fv d_file d_depex] in *.
      destruct (UN _ _ _ _ _ _ _ F (INW _ F2)) as (_ & _ & <-). destruct S as [|y tail W|y tail W|g W|g W]; cbn [evolved] in EV2; [destruct EV2|..].
      * destruct (not_associated_encode y tail W) as (_ & NS). destruct (evolves_plain _ _ _ _ _ EV2 NS) as (old & FO & E & _ & _). exists old.
        split; [eapply Forall_impl; [|exact FO]; intros q; now apply seen_mono|]. intros H. subst x. apply (eval_after_history y tail old ps W) in H. rewrite EX in H. discriminate.
      * rewrite sor_bytes in EV2. destruct (not_associated_encode y tail W) as (_ & NS). destruct (evolves_sor _ _ _ _ _ EV2 NS) as [->|(_ & old & FO & E & _ & _)].
        -- left. exists x'. split; [reflexivity|]. pose proof (eval_head ps (Sor :: depex_from (depex_bytes y ++ tail))) as (Q & _). rewrite EX in Q. exact Q.
        -- right. exists old. split; [eapply Forall_impl; [|exact FO]; intros q; now apply seen_mono|]. intros H. subst x. apply (eval_after_history y tail old ps W) in H. rewrite EX in H. discriminate.
      * exfalso. destruct (says_assoc _ _ _ _ _ _ EV1 (says_before g W) Logic.I) as (e' & E' & NA). injection E' as <-. apply NA. exact C3.
      * exfalso. destruct (says_assoc _ _ _ _ _ _ EV1 (says_after g W) Logic.I) as (e' & E' & NA). injection E' as <-. apply NA. exact C3.
    + injection C2 as AF <-. rewrite DX in *. destruct dx as [b|]; [destruct EV1|]. inversion S; subst. intros INCL. unfold arch in AF. destruct (w_arch w); [discriminate|].
      apply arch_depex in INCL. congruence.
  - rewrite Forall_forall. intros d D. unfold all_of in D. apply in_concat in D. destruct D as (l & L & D). apply in_map_iff in L. destruct L as ((g, l') & L & G). cbn [snd] in L. subst l'.
    intros dx dep F S fails. pose proof B2 as FB. unfold before_ok in FB. rewrite Forall_forall in FB. specialize (FB (g, l) G). cbn [fst snd] in FB. rewrite Forall_forall in FB. specialize (FB d D).
    assert (D' : tracked (w_events w') d).
    { pose proof (i_tracked _ _ I') as TK. rewrite Forall_forall in TK. apply TK. apply in_or_app. left. rewrite pool_eq. apply in_or_app. right. apply in_or_app. left.
      cbn [w' w_before]. apply in_concat. exists l. split; [|exact D]. apply in_map_iff. exists (g, l). split; [reflexivity|exact G]. }
    destruct D' as (dx1 & F1 & EV1). destruct (UN _ _ _ _ _ _ _ F (INC _ F1)) as (_ & _ & <-). unfold assoc_of in FB. destruct (d_depex d) as [e|] eqn:DX; [|discriminate].
    rewrite (assoc_says _ _ _ _ _ _ _ EV1 FB S). intros id' fv' dx' dep'. apply CH. apply GB. apply in_map_iff. exists (g, l). split; [reflexivity|exact G].
  - rewrite Forall_forall. intros d D. unfold all_of in D. apply in_concat in D. destruct D as (l & L & D). apply in_map_iff in L. destruct L as ((g, l') & L & G). cbn [snd] in L. subst l'.
    intros dx dep F S fails. pose proof A2 as FB. unfold after_ok in FB. rewrite Forall_forall in FB. specialize (FB (g, l) G). cbn [fst snd] in FB. rewrite Forall_forall in FB. specialize (FB d D).
    assert (D' : tracked (w_events w') d).
    { pose proof (i_tracked _ _ I') as TK. rewrite Forall_forall in TK. apply TK. apply in_or_app. left. rewrite pool_eq. apply in_or_app. right. apply in_or_app. right.
      cbn [w' w_after]. apply in_concat. exists l. split; [|exact D]. apply in_map_iff. exists (g, l). split; [reflexivity|exact G]. }
    destruct D' as (dx1 & F1 & EV1). destruct (UN _ _ _ _ _ _ _ F (INC _ F1)) as (_ & _ & <-). unfold assoc_of in FB. destruct (d_depex d) as [e|] eqn:DX; [|discriminate].
    rewrite (assoc_says _ _ _ _ _ _ _ EV1 FB S). intros id' fv' dx' dep'. apply CH. apply GA. apply in_map_iff. exists (g, l). split; [reflexivity|exact G].
Qed.

(** ** The last pass *)
Lemma run_all_true : forall o nested p l w b w', run_all o nested p l true w = (Done b, w') -> b = true.
Proof.
  intros o nested p. induction l as [|d l IH]; intros w b w' H; cbn [run_all] in H; [congruence|].
  destruct (run_driver o nested p d w) as [[x| |] w1]; cbn [and_then] in H; try discriminate. exact (IH _ _ _ H).
Qed.
Lemma install_sections_true : forall o n w, fst (install_sections o n true w) = true.
Proof. intros o. induction n as [|n IH]; intros w; cbn [install_sections]; [reflexivity|]. apply IH. Qed.
Lemma install_images_true : forall o l w, fst (install_images o l true w) = true.
Proof.
  intros o. induction l as [|c l IH]; intros w; cbn [install_images]; [reflexivity|].
  destruct (match i_depex c with Some e => _ | None => _ end) as (ok, e). destruct (ok && o_auth o (w_events w)); [|apply IH].
  pose proof (install_sections_true o (i_sections c) w) as T. destruct (install_sections o (i_sections c) true w) as (a, w1). cbn [fst] in T. subst a. apply IH.
Qed.

(** As before, with more events and the drivers [def] put back. *)
Definition idle (p : nat) (done : list nat) (def : list driver) (w w' : world) : Prop :=
  w_pending w' = w_pending w ++ def /\ w_before w' = w_before w /\ w_after w' = w_after w /\ w_protocols w' = w_protocols w /\ w_pass w' = w_pass w /\
  incl (w_events w) (w_events w') /\ tried p (w_events w') = tried p (w_events w) ++ done /\ Forall (fun d => In (EvLoad (d_id d) (Loaded SViolation)) (w_events w')) def.
Lemma idle_trans : forall p a b da db w1 w2 w3, idle p a da w1 w2 -> idle p b db w2 w3 -> idle p (a ++ b) (da ++ db) w1 w3.
Proof.
  intros p a b da db w1 w2 w3 (A1 & A2 & A3 & A4 & A5 & A6 & A7 & A8) (B1 & B2 & B3 & B4 & B5 & B6 & B7 & B8).
  split; [now rewrite B1, A1, app_assoc|]. repeat (split; [congruence|]). split; [eapply incl_tran; eassumption|]. split; [now rewrite B7, A7, app_assoc|].
  apply Forall_app. split; [|exact B8]. eapply Forall_impl; [|exact A8]. intros d. apply B6.
Qed.

Section Silent.
  Variables (o : oracle) (nested : world -> run (res derr unit)).
  Hypothesis NO : nested_ok nested.
  Hypothesis QU : forall evs, o_notify o evs = [].
  Lemma quiet_yield : forall w, yield o nested w = (Done tt, w).
  Proof. intros w. unfold yield. rewrite QU. reflexivity. Qed.

  Lemma run_driver_idle : forall p d F w w', Inv (d :: F) w -> run_driver o nested p d w = (Done false, w') -> exists def, idle p [d_id d] def w w'.
  Proof.
    intros p d F w w' I H. unfold run_driver in H. set (w1 := emit w (EvTry p (d_id d))) in *.
    assert (I1 : idle p [d_id d] [] w w1).
    { split; [now rewrite app_nil_r|]. repeat (split; [reflexivity|]). split; [apply incl_cons_r|]. split; [|constructor]. cbn [w1 emit w_events]. rewrite tried_cons, Nat.eqb_refl. reflexivity. }
    assert (OUT : forall def w2, idle p [] def w1 w2 -> exists def', idle p [d_id d] def' w w2).
    { intros def w2 J. exists def. exact (idle_trans _ _ _ _ _ _ _ _ I1 J). }
    assert (SAME : forall w2, w2 = w1 -> idle p [] [] w1 w2).
    { intros w2 ->. split; [now rewrite app_nil_r|]. repeat (split; [reflexivity|]). split; [apply incl_refl|]. split; [now rewrite app_nil_r|constructor]. }
    destruct (d_image d) eqn:DI; cbn [and_then] in H.
    - rewrite DI in H. pose proof (i_secure _ _ I) as S. apply Forall_app in S. destruct S as (_ & S). inversion S as [|? ? SD _]; subst. destruct (SD DI) as (LV & [ST|(ST & TR)]); rewrite ST in H.
      + rewrite quiet_yield in H. cbn [and_then] in H. injection H as <-. apply (OUT [d]). split; [reflexivity|]. repeat (split; [reflexivity|]). split; [apply incl_refl|].
        split; [now rewrite app_nil_r|]. constructor; [|constructor]. right. exact LV.
      + destruct (acts nested _ _) as [[u| |] w2]; cbn [and_then] in H; discriminate.
    - rewrite quiet_yield in H. cbn [and_then] in H. set (r := o_load o (w_events w1)) in *. clearbody r. set (w2 := emit w1 (EvLoad (d_id d) r)) in *.
      assert (I2 : idle p [] [] w1 w2).
      { split; [now rewrite app_nil_r|]. repeat (split; [reflexivity|]). split; [apply incl_cons_r|]. split; [|constructor]. cbn [w2 emit w_events]. rewrite tried_cons. reflexivity. }
      destruct r as [|st]; [rewrite DI in H; injection H as <-; exact (OUT _ _ I2)|]. cbn [d_image d_status] in H. destruct st.
      + injection H as <-. exact (OUT _ _ I2).
      + destruct (acts nested _ _) as [[u| |] w3]; cbn [and_then] in H; discriminate.
      + rewrite quiet_yield in H. cbn [and_then] in H. injection H as <-. eapply OUT. change (@nil nat) with (@nil nat ++ []). eapply idle_trans; [exact I2|].
        split; [reflexivity|]. repeat (split; [reflexivity|]). split; [apply incl_refl|]. split; [now rewrite app_nil_r|]. constructor; [now left|constructor].
      + injection H as <-. exact (OUT _ _ I2).
  Qed.
  Lemma run_all_idle : forall p l F w w', Inv (l ++ F) w -> active p l w -> run_all o nested p l false w = (Done false, w') -> exists def, idle p (ids l) def w w'.
  Proof.
    intros p. induction l as [|d l IH]; intros F w w' I A H; cbn [run_all] in H.
    - injection H as <-. exists []. split; [now rewrite app_nil_r|]. repeat (split; [reflexivity|]). split; [apply incl_refl|]. split; [now rewrite app_nil_r|constructor].
    - destruct (run_driver_ok o nested NO p d l F w I A) as (I1 & _ & AC). pose proof (fun w' => run_driver_idle p d (l ++ F) w w' I) as ID.
      destruct (run_driver o nested p d w) as [[b| |] w1]; cbn [and_then fst snd] in *; try discriminate. destruct (AC b eq_refl) as (A1 & _).
      cbn [orb] in H. destruct b; [apply run_all_true in H; discriminate|]. destruct (ID w1 eq_refl) as (d1 & J1). destruct (IH F w1 w' I1 A1 H) as (d2 & J2). exists (d1 ++ d2).
      exact (idle_trans _ _ _ _ _ _ _ _ J1 J2).
  Qed.
  Lemma set_images_idle : forall p w l, idle p [] [] w (set_images w l).
  Proof. intros p w l. split; [now rewrite app_nil_r|]. repeat (split; [reflexivity|]). split; [apply incl_refl|]. split; [now rewrite app_nil_r|constructor]. Qed.
  Lemma install_sections_idle : forall p n a w, idle p [] [] w (snd (install_sections o n a w)).
  Proof.
    intros p. induction n as [|n IH]; intros a w; cbn [install_sections].
    - split; [now rewrite app_nil_r|]. repeat (split; [reflexivity|]). split; [apply incl_refl|]. split; [now rewrite app_nil_r|constructor].
    - change (@nil nat) with (@nil nat ++ []). change (@nil driver) with (@nil driver ++ []). eapply idle_trans; [|apply IH].
      split; [now rewrite app_nil_r|]. repeat (split; [reflexivity|]). split; [apply incl_cons_r|]. split; [|constructor]. cbn [emit w_events]. rewrite tried_cons. reflexivity.
  Qed.
  Lemma install_images_idle : forall p l a w, idle p [] [] w (snd (install_images o l a w)).
  Proof.
    intros p. induction l as [|c l IH]; intros a w; cbn [install_images].
    - split; [now rewrite app_nil_r|]. repeat (split; [reflexivity|]). split; [apply incl_refl|]. split; [now rewrite app_nil_r|constructor].
    - destruct (match i_depex c with Some e => _ | None => _ end) as (ok, e). change (@nil nat) with (@nil nat ++ []). change (@nil driver) with (@nil driver ++ []).
      destruct (ok && o_auth o (w_events w)).
      + pose proof (install_sections_idle p (i_sections c) a w) as J. destruct (install_sections o (i_sections c) a w) as (a', w1). cbn [snd] in J. eapply idle_trans; [exact J|apply IH].
      + eapply idle_trans; [apply set_images_idle|apply IH].
  Qed.

  Lemma schedule_in_some : forall h f l d e, In d l -> d_fv d = h -> d_file d = f -> d_depex d = Some e -> is_sor e = true -> exists l', schedule_in h f l = Some l'.
  Proof.
    intros h f. induction l as [|x l IH]; intros d e D V N X S; [destruct D|]. cbn [schedule_in].
    assert (TL : In d l -> exists l', option_map (cons x) (schedule_in h f l) = Some l').
    { intros D'. destruct (IH d e D' V N X S) as (l' & ->). eexists. reflexivity. }
    destruct D as [->|D].
    - rewrite X, V, N, N.eqb_refl, (proj2 (bytes_eqb_eq f f) eq_refl), S. eexists. reflexivity.
    - destruct (d_depex x); [destruct (_ && _ && _); [eexists; reflexivity|]|]; now apply TL.
  Qed.

  Lemma stuck_blocked : forall w d, NoDup (found_ids (w_events w)) -> tracked (w_events w) d -> In d (pool w) ->
    (forall e, d_depex d = Some e -> is_sor e = true -> In d (w_pending w)) -> stuck (w_events w) (w_protocols w) (pred (w_pass w)) d -> blocked w (d_id d).
  Proof.
    intros w d ND (dx & F & EV) D SP ST fv file dx' dep F' S. destruct (found_unique _ ND _ _ _ _ _ _ _ F' F) as (-> & -> & ->). specialize (ST dx dep F S). cbv zeta in ST. destruct dep; try exact ST.
    destruct ST as [(e' & E' & SO)|ST]; [left|right; exact ST]. destruct (schedule_in_some (d_fv d) (d_file d) (w_pending w) d e' (SP e' E' SO) eq_refl eq_refl E' SO) as (l' & E).
    unfold core_schedule. rewrite E. reflexivity.
  Qed.

  Lemma dispatch_last : forall w w', Inv [] w -> dispatch o nested w = (Done (Ok false), w') ->
    forall id, waits w' id -> blocked w' id \/ In (EvLoad id (Loaded SViolation)) (w_events w').
  Proof.
    intros w w' I H. pose proof (dispatch_ok o nested NO [] w I) as (I' & _). rewrite H in I'. cbn [snd] in I'. unfold dispatch in H. destruct (w_executing w); [discriminate|].
    rewrite quiet_yield in H. cbn [and_then] in H. destruct (plan w) as (s, w1) eqn:PL. destruct (plan_ok _ _ _ _ I PL) as (I1 & _ & _ & A1).
    rewrite quiet_yield in H. cbn [and_then] in H.
    pose proof (fun w' => run_all_idle (w_pass w) s [] w1 w' I1 A1) as RI. destruct (run_all o nested (w_pass w) s false w1) as [[a| |] w2]; cbn [and_then] in H; try discriminate.
    pose proof (install_images_idle (w_pass w) (w_images w2) a (set_images w2 [])) as J3. pose proof (install_images_true o (w_images w2) (set_images w2 [])) as TT.
    destruct (install_images o (w_images w2) a (set_images w2 [])) as (a', w3) eqn:II. cbn [snd] in J3. rewrite quiet_yield in H. cbn [and_then] in H. injection H as -> <-.
    assert (AF : a = false) by (destruct a; [rewrite II in TT; discriminate|reflexivity]). subst a. destruct (RI w2 eq_refl) as (def & J2).
    pose proof (idle_trans _ _ _ _ _ _ _ _ (idle_trans _ _ _ _ _ _ _ _ J2 (set_images_idle _ w2 [])) J3) as J. rewrite !app_nil_r in J. clear J2 J3 RI TT II.
    destruct J as (P1 & P2 & P3 & P4 & P5 & P6 & P7 & P8).
    assert (W1 : w_protocols w1 = w_protocols w /\ w_pass w1 = S (w_pass w)).
    { unfold plan in PL. destruct (sort_out _ _ _ _ _ _ _) as (((ready, pend), bef), aft). destruct (line_up ready bef aft) as ((s0, bef'), aft'). injection PL as _ <-. split; reflexivity. }
    destruct W1 as (W1 & W2).
    assert (T1 : tried (w_pass w) (w_events w1) = []).
    { unfold plan in PL. destruct (sort_out _ _ _ _ _ _ _) as (((ready, pend), bef), aft). destruct (line_up ready bef aft) as ((s0, bef'), aft'). injection PL as _ <-. cbn [w_events]. rewrite tried_cons, app_nil_r.
      apply (tried_none _ w [] I). lia. }
    rewrite T1 in P7. cbn [app] in P7.
    pose proof (plan_left _ _ _ _ I PL (w_events w3) P6 (i_found _ _ I') P7) as ST.
    intros id W. unfold waits, held in W. apply in_map_iff in W. destruct W as (d & <- & D). fold (pool w3) in D.
    pose proof (i_tracked _ _ I') as TK. rewrite app_nil_r in TK. rewrite Forall_forall in TK.
    assert (DD : In d (pool w1) \/ In d def).
    { unfold pool in D |- *. rewrite P1, P2, P3 in D. rewrite !in_app_iff in D |- *. rewrite ?in_app_iff in D. tauto. }
    destruct DD as [DD|DD]; [left|right; rewrite Forall_forall in P8; exact (P8 d DD)].
    apply stuck_blocked; [exact (i_found _ _ I')|exact (TK d D)|exact D| |].
    - intros e DX SO. unfold pool in D. rewrite !in_app_iff in D. destruct D as [D|[D|D]]; [exact D| |]; exfalso;
        apply in_concat in D; destruct D as (l & L & D); apply in_map_iff in L; destruct L as ((g, l') & L & G); cbn [snd] in L; subst l'.
      + pose proof (i_before _ _ I') as FB. rewrite Forall_forall in FB. specialize (FB (g, l) G). cbn [fst snd] in FB. rewrite Forall_forall in FB. specialize (FB d D). unfold assoc_of in FB.
        rewrite DX in FB. destruct e as [|[] e]; discriminate.
      + pose proof (i_after _ _ I') as FB. rewrite Forall_forall in FB. specialize (FB (g, l) G). cbn [fst snd] in FB. rewrite Forall_forall in FB. specialize (FB d D). unfold assoc_of in FB.
        rewrite DX in FB. destruct e as [|[] e]; discriminate.
    - rewrite Forall_forall in ST. rewrite P4, W1, P5, W2. exact (ST d DD).
  Qed.
End Silent.

Lemma core_dispatcher_last : forall o, (forall evs, o_notify o evs = []) -> forall fuel something w r w', Inv [] w -> core_dispatcher o fuel something w = (Done r, w') -> r <> Err DAlreadyStarted ->
  forall id, waits w' id -> blocked w' id \/ In (EvLoad id (Loaded SViolation)) (w_events w').
Proof.
  intros o QU. induction fuel as [|f IH]; intros something w r w' I H NA; cbn [core_dispatcher] in H; [discriminate|].
  destruct (w_executing w); [congruence|].
  assert (NO : nested_ok (core_dispatcher o f false)) by (intros fr x J; now apply core_dispatcher_ok).
  pose proof (dispatch_ok o _ NO [] w I) as (I1 & _). pose proof (fun w' => dispatch_last o _ NO QU w w' I) as DL.
  destruct (dispatch o (core_dispatcher o f false) w) as [[x| |] w1] eqn:DI; cbn [and_then snd] in *; try discriminate. destruct x as [[|]|e|]; try discriminate.
  - exact (IH true w1 r w' I1 H NA).
  - injection H as <- <-. exact (DL w1 eq_refl).
  - injection H as <- <-. unfold dispatch in DI. destruct (w_executing w); [congruence|]. exfalso.
    destruct (yield _ _ w) as [[a| |] x1]; cbn [and_then] in DI; try discriminate. destruct (plan x1) as (s, x2).
    destruct (yield _ _ x2) as [[b| |] x3]; cbn [and_then] in DI; try discriminate. destruct (run_all _ _ _ _ _ _) as [[c| |] x4]; cbn [and_then] in DI; try discriminate.
    destruct (install_images _ _ _ _) as (y, x5). destruct (yield _ _ x5) as [[z| |] x6]; cbn [and_then] in DI; discriminate.
Qed.
