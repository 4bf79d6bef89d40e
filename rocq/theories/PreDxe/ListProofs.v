(** All hand-off blocks, page zero and the buckets. *)
From Coq Require Import ZifyBool ZifyN.
From Verif Require Import Base.Prelude Align.Model Align.Proofs Align.Main Gcd.Blocks Gcd.Model Gcd.Spec Gcd.BlockProofs Gcd.Proofs Gcd.AllocProofs Gcd.Main Gcd.Hist Gcd.Complete Gcd.Props Alloc.Model Alloc.Spec Alloc.Pool Alloc.Pages Alloc.Calls Alloc.System PreDxe.Model PreDxe.Spec PreDxe.Proofs.
Local Open Scope N_scope.

(** ** Taken memory stays taken *)
Definition keeps_taken (g g' : gcd) : Prop := forall x st, state_at (g_blocks g) x = Some st -> ms_alloc st = true -> state_at (g_blocks g') x = Some st.

Lemma keeps_refl : forall g, keeps_taken g g.
Proof. intros g x st H _. exact H. Qed.
Lemma keeps_trans : forall g1 g2 g3, keeps_taken g1 g2 -> keeps_taken g2 g3 -> keeps_taken g1 g3.
Proof. intros g1 g2 g3 H1 H2 x st A B. apply H2; auto. Qed.

Lemma took_keeps_taken : forall g g' b l own ty, took_at g g' b l own ty -> keeps_taken g g'.
Proof.
  intros g g' b l own ty (st & A & T & C1 & C2) x s0 E A0. destruct (N.leb_spec b x) as [L1|L1].
  - destruct (N.ltb_spec x (b + l)) as [L2|L2].
    + destruct (C1 x (conj L1 L2)) as (Q & _). congruence.
    + rewrite C2; [exact E|]. unfold in_range. lia.
  - rewrite C2; [exact E|]. unfold in_range. lia.
Qed.

Lemma worked_keeps : forall p h s s', worked p h s s' -> keeps_taken (s_g s) (s_g s').
Proof. intros p h s s' [E|(b & l & own & mt & _ & _ & T & _)]; [rewrite E; apply keeps_refl|eapply took_keeps_taken; eauto]. Qed.

Lemma took_elsewhere : forall g g' b l own ty x, took_at g g' b l own ty -> ~ in_range b l x -> state_at (g_blocks g') x = state_at (g_blocks g) x.
Proof. intros g g' b l own ty x (st & _ & _ & _ & C2) H. now apply C2. Qed.

Lemma known_tail : forall s h l, types_known s (h :: l) -> types_known s [h] /\ types_known s l.
Proof.
  intros s h l H. split; intros ty b n I A; apply (H ty b n); auto; [destruct I as [->|[]]; left; reflexivity|right; exact I].
Qed.
Lemma known_next : forall s s' l, same_ids (s_als s) (s_als s') -> types_known s l -> types_known s' l.
Proof.
  intros s s' l S H ty b n I A. destruct (H ty b n I A) as (a & Ha & E). destruct (same_ids_back _ _ _ S Ha) as (a' & Ha' & E1 & _).
  exists a'. split; [exact Ha'|congruence].
Qed.

(** ** The list *)
Lemma list_step : forall dbg bits p l s s', ready dbg bits p s -> Forall phob_wf l -> types_known s l -> process_list dbg p s l = Some s' ->
  ready dbg bits p s' /\ same_ids (s_als s) (s_als s') /\ g_cap (s_g s') = g_cap (s_g s) /\
  clen (g_blocks (s_g s')) <= clen (g_blocks (s_g s)) + 2 * N.of_nat (length l) /\ keeps_taken (s_g s) (s_g s').
Proof.
  induction l as [|h l IH]; intros s s' R W K E; cbn [process_list] in E.
  - inversion E; subst. split; [exact R|]. split; [reflexivity|]. split; [reflexivity|]. split; [cbn [length]; lia|apply keeps_refl].
  - destruct (process_one dbg p s h) as [s1|] eqn:E1; [|discriminate]. apply Forall_cons_iff in W. destruct W as (W1 & W2).
    destruct (known_tail _ _ _ K) as (K1 & K2). destruct (one_step dbg bits p s h s1 R W1 K1 E1) as (A & (B1 & B2 & B3) & C & _).
    destruct (IH s1 s' A W2 (known_next _ _ _ B1 K2) E) as (A' & B1' & B2' & B3' & C').
    split; [exact A'|]. split; [unfold same_ids in *; congruence|]. split; [congruence|]. split; [cbn [length]; lia|].
    eapply keeps_trans; [eapply worked_keeps; exact C|exact C'].
Qed.

Definition given (g : gcd) (b l own : N) : Prop := forall x, in_range b l x -> allocated_to g own x.

Lemma given_keeps : forall g g' b l own, keeps_taken g g' -> given g b l own -> given g' b l own.
Proof. intros g g' b l own K G x X. destruct (G x X) as (st & A & B & C). exists st. split; [apply K; auto|auto]. Qed.

Lemma took_given : forall g g' b l own ty, took_at g g' b l own ty -> given g' b l own.
Proof. intros g g' b l own ty (st & A & T & C1 & _) x X. destruct (C1 x X) as (_ & E). eexists. split; [exact E|]. split; reflexivity. Qed.

Lemma uniform_clear : forall g b l st, nobodys g b l st -> 0 < l -> forall g', (forall x, in_range b l x -> state_at (g_blocks g') x = state_at (g_blocks g) x) -> nobodys g' b l st.
Proof. intros g b l st (U & A & I) L g' S. split; [|auto]. intros x X. rewrite S by exact X. auto. Qed.

Lemma entitled_pos : forall p st h own b l, entitled p st h own -> describes h b l -> 0 < l.
Proof. intros p st h own b l E D. inversion E; subst; destruct D as (<- & <-); auto. Qed.

Lemma list_keeps_block : forall dbg bits p h b n st own l s s', ready dbg bits p s -> Forall phob_wf l -> types_known s l -> process_list dbg p s l = Some s' ->
  In h l -> describes h b n -> nobodys (s_g s) b n st -> entitled p st h own -> b + n <= 2 ^ bits ->
  (forall h', In h' l -> h' = h \/ forall x, in_range b n x -> ~ covers p h' x) ->
  room (s_g s) (2 * N.of_nat (length l)) -> given (s_g s') b n own.
Proof.
  intros dbg bits p h b n st own. induction l as [|h0 l IH]; intros s s' R W K E I D NB EN LE AP RM; [destruct I|]. cbn [process_list] in E.
  destruct (process_one dbg p s h0) as [s1|] eqn:E1; [|discriminate]. apply Forall_cons_iff in W. destruct W as (W1 & W2).
  destruct (known_tail _ _ _ K) as (K1 & K2). destruct (one_step dbg bits p s h0 s1 R W1 K1 E1) as (A & (B1 & B2 & B3) & C & M).
  pose proof (known_next _ _ _ B1 K2) as K2'. unfold room in RM. fold (clen (g_blocks (s_g s))) in RM. cbn [length] in RM.
  assert (MINE : h0 = h -> given (s_g s') b n own).
  { intros ->. assert (T : took_at (s_g s) (s_g s1) b n own (ms_type st)) by (apply M; auto; unfold room; fold (clen (g_blocks (s_g s))); lia).
    destruct (list_step dbg bits p l s1 s' A W2 K2' E) as (_ & _ & _ & _ & KT). eapply given_keeps; [exact KT|]. eapply took_given; eauto. }
  destruct I as [->|I]; [auto|]. destruct (AP h0 (or_introl eq_refl)) as [->|AP0]; [auto|].
  apply (IH s1 s'); auto.
  - apply (uniform_clear (s_g s)); [exact NB|eapply entitled_pos; eauto|]. intros x X. destruct C as [C|(b0 & l0 & own0 & mt & C1 & _ & C3 & _)]; [now rewrite C|].
    eapply took_elsewhere; [exact C3|]. intros X0. apply (AP0 x X). auto.
  - intros h' H'. apply AP. right. exact H'.
  - unfold room. fold (clen (g_blocks (s_g s1))). rewrite B2. lia.
Qed.

Lemma list_only : forall dbg bits p l s s' x, ready dbg bits p s -> Forall phob_wf l -> types_known s l -> process_list dbg p s l = Some s' ->
  state_at (g_blocks (s_g s')) x = state_at (g_blocks (s_g s)) x \/
  exists h own st st', In h l /\ covers p h x /\ state_at (g_blocks (s_g s)) x = Some st /\ state_at (g_blocks (s_g s')) x = Some st' /\
    taken_for own st st' /\ rightful p h (ms_type st) own /\ (ms_type st = MemoryMappedIo \/ 4096 <= x).
Proof.
  induction l as [|h0 l IH]; intros s s' x R W K E; cbn [process_list] in E; [inversion E; subst; auto|].
  destruct (process_one dbg p s h0) as [s1|] eqn:E1; [|discriminate]. apply Forall_cons_iff in W. destruct W as (W1 & W2).
  destruct (known_tail _ _ _ K) as (K1 & K2). destruct (one_step dbg bits p s h0 s1 R W1 K1 E1) as (A & (B1 & B2 & B3) & C & M).
  pose proof (known_next _ _ _ B1 K2) as K2'. destruct (list_step dbg bits p l s1 s' A W2 K2' E) as (_ & _ & _ & _ & KT).
  assert (ST : state_at (g_blocks (s_g s1)) x = state_at (g_blocks (s_g s)) x ->
    state_at (g_blocks (s_g s')) x = state_at (g_blocks (s_g s)) x \/
    exists h own st st', In h (h0 :: l) /\ covers p h x /\ state_at (g_blocks (s_g s)) x = Some st /\ state_at (g_blocks (s_g s')) x = Some st' /\
      taken_for own st st' /\ rightful p h (ms_type st) own /\ (ms_type st = MemoryMappedIo \/ 4096 <= x)).
  { intros Q. rewrite <- Q. destruct (IH s1 s' x A W2 K2' E) as [Y|(h & own & st & st' & Y1 & Y)]; [auto|]. right. exists h, own, st, st'. split; [right; exact Y1|exact Y]. }
  destruct C as [C|(b & n & own & mt & C1 & C2 & C3 & C4)]; [apply ST; now rewrite C|].
  destruct (N.leb_spec b x) as [L1|L1]; [|apply ST; eapply took_elsewhere; [exact C3|unfold in_range; lia]].
  destruct (N.ltb_spec x (b + n)) as [L2|L2]; [|apply ST; eapply took_elsewhere; [exact C3|unfold in_range; lia]].
  right. destruct C3 as (st & T1 & T2 & T3 & _). destruct (T3 x (conj L1 L2)) as (Q1 & Q2). exists h0, own, st. eexists. split; [left; reflexivity|].
  split; [apply C1; split; auto|]. split; [exact Q1|]. split; [apply KT; [exact Q2|reflexivity]|]. split; [split; [exact T1|reflexivity]|].
  rewrite T2. split; [exact C4|]. destruct C2; [auto|right; lia].
Qed.

(** ** Nobody else gets it *)
Lemma taken_never_out : forall dbg bits s x, reach dbg bits (s_g s) -> allocated_at (s_g s) x -> never_handed_out (s_g s) x.
Proof.
  intros dbg bits s x R A ops g1 at_ ty sh len image device v g2 W RUN NF WO ST. intros X.
  destruct (reach_map _ _ _ R) as (HM & Hmax & _). assert (GI : gcd_inv (s_g s)) by (split; [exact Hmax|left; exact HM]).
  assert (K : allocated_at g1 x).
  { apply (run_keeps_alloc ops (s_g s)); auto. intros o b l Io Fo Co. apply NF. destruct o; try discriminate; cbn [call_range] in Co; injection Co as <- <-; auto. }
  destruct (run_inv _ _ _ GI W RUN) as (GI1 & _).
  destruct (alloc_takes_free _ _ _ _ _ _ _ _ _ GI1 WO ST x X) as (NA & _). contradiction.
Qed.

(** ** The buckets *)
Record sane (dbg : bool) (bits : N) (p : platform) (s : sys) : Prop := {
  sn_reach : reach dbg bits (s_g s);
  sn_fresh : forall ty, p_fresh p ty <> 0 /\ word (p_fresh p ty);
  sn_als : forall a, In a (s_als s) -> al_handle a = holder p (al_type a) /\ al_gran a = unit_of p (al_type a) }.

Lemma ready_sane : forall dbg bits p s, ready dbg bits p s -> sane dbg bits p s.
Proof. intros dbg bits p s R. split; [eapply ready_reach; eauto|exact (rd_fresh _ _ _ _ R)|exact (rd_als _ _ _ _ R)]. Qed.

Lemma sane_next : forall dbg bits p s s', sane dbg bits p s -> reach dbg bits (s_g s') -> same_ids (s_als s) (s_als s') -> sane dbg bits p s'.
Proof.
  intros dbg bits p s s' [A B C] R S. split; auto. intros a Ha. destruct (same_ids_in _ _ _ S Ha) as (b & Hb & E1 & E2 & E3). destruct (C b Hb). rewrite E1, E2, E3. auto.
Qed.

Lemma gcd_took_any : forall dbg bits g at_ ty sh len image v g', reach dbg bits g -> op_wf (OpAllocate at_ ty sh len image None) ->
  gcd_step g (OpAllocate at_ ty sh len image None) = (Ok v, g') -> took_at g g' v len image ty /\ v + len <= 2 ^ bits.
Proof.
  intros dbg bits g at_ ty sh len image v g' R W S. destruct R as ((n & p & ops & R) & _).
  destruct (allocation_is_safe _ _ _ _ _ _ _ _ _ _ _ _ _ _ R W S) as (_ & LE & _ & _ & _ & _ & s & F1 & F2 & _ & _ & _ & _ & F7 & F8).
  split; [|exact LE]. exists s. split; [exact F1|]. split; [exact F2|]. rewrite F2. split; [exact F7|exact F8].
Qed.

Lemma fsb_same_id : forall ch a size align q a', fsb_alloc ch a size align = Got q a' -> same_id a a'.
Proof.
  intros ch a size align q a' H. unfold fsb_alloc, fallback_alloc in H.
  repeat match type of H with
  | match ?x with _ => _ end = _ => destruct x; try discriminate
  | (let '(_, _) := ?x in _) = _ => destruct x
  end; inversion H; subst; repeat split.
Qed.

Lemma pages_to_size_word : forall dbg n len, pages_to_size dbg n = Ok len -> word len.
Proof.
  intros dbg n len H. unfold pages_to_size, umul in H. destruct (N.ltb_spec (n * PAGE) two64) as [L|L]; [inversion H; subst; exact L|].
  destruct dbg; [discriminate|]. inversion H; subst. apply N.mod_lt. discriminate.
Qed.

Lemma expand_same_id : forall dbg a b len a', expand dbg a b len = Ok a' -> same_id a a'.
Proof.
  intros dbg a b len a' H. unfold expand in H. destruct (_ <=? _); [destruct dbg; discriminate|]. apply notify_same in H. exact H.
Qed.
Lemma same_id_trans : forall a b c, same_id a b -> same_id b c -> same_id a c.
Proof. intros a b c (A1 & A2 & A3) (B1 & B2 & B3). repeat split; congruence. Qed.

Lemma allocate_keeps : forall dbg bits ch g a size align k r g' a', reach dbg bits g -> al_gran a = 2 ^ k -> 12 <= k -> k < 64 ->
  word (al_handle a) -> allocate dbg ch g a size align = (r, g', a') -> r <> Panic ->
  same_id a a' /\ reach dbg bits g' /\ keeps_taken g g'.
Proof.
  intros dbg bits ch g a size align k r g' a' R EK K1 K2 HW E NP. unfold allocate in E.
  destruct (fsb_alloc (ch 0%nat) a size align) as [q a1|need] eqn:E1.
  { inversion E; subst. split; [eapply fsb_same_id; eauto|]. split; [exact R|apply keeps_refl]. }
  destruct (expansion_size dbg a need) as [len|e|] eqn:E2;
    [|inversion E; subst; split; [apply same_id_refl|]; split; [exact R|apply keeps_refl]|inversion E; subst; contradiction].
  rewrite EK, page_shift_unit in E by exact K1.
  assert (LW : word len).
  { unfold expansion_size in E2. destruct (size_to_pages dbg (N.max need MIN_EXPANSION)); try discriminate. cbn [bind] in E2.
    destruct (size_to_pages dbg (al_gran a)); try discriminate. cbn [bind] in E2.
    destruct (match align_up 64 _ _ with Ok r => Ok r | _ => _ end); try discriminate. cbn [bind] in E2. eapply pages_to_size_word; eauto. }
  assert (W : op_wf (OpAllocate (TopDown None) SystemMemory k len (al_handle a) None)).
  { cbn [op_wf]. split; [unfold word; change two64 with 18446744073709551616; lia|]. auto. }
  destruct (gcd_step g (OpAllocate (TopDown None) SystemMemory k len (al_handle a) None)) as [rg g1] eqn:E4. destruct rg as [v|e|].
  3: { inversion E; subst. contradiction. }
  2: { pose proof (alloc_err _ _ _ _ _ _ _ _ _ _ R W E4) as ->. inversion E; subst. split; [apply same_id_refl|]. split; [exact R|apply keeps_refl]. }
  destruct (gcd_took_any _ _ _ _ _ _ _ _ _ _ R W E4) as (T & _). pose proof (reach_step _ _ _ _ _ _ R W E4 ltac:(discriminate)) as R1.
  assert (X : g' = g1 /\ same_id a a').
  { destruct (v =? 0); [inversion E; subst; split; [reflexivity|apply same_id_refl]|].
    destruct (expand dbg a v len) as [a1|e|] eqn:EX; [|inversion E; subst; split; [reflexivity|apply same_id_refl]|inversion E; subst; split; [reflexivity|apply same_id_refl]].
    apply expand_same_id in EX. destruct (fsb_alloc (ch 1%nat) a1 size align) as [q a2|n2] eqn:E5; inversion E; subst; (split; [reflexivity|]); [|exact EX].
    eapply same_id_trans; [exact EX|]. eapply fsb_same_id; eauto. }
  destruct X as (-> & X). split; [exact X|]. split; [exact R1|]. eapply took_keeps_taken; eauto.
Qed.

Lemma reserve_keeps : forall dbg bits g a pages k r g' a', reach dbg bits g -> al_gran a = 2 ^ k -> 12 <= k -> k < 64 ->
  word (al_handle a) -> reserve_pages dbg g a pages = (r, g', a') -> r <> Panic ->
  same_id a a' /\ reach dbg bits g' /\ keeps_taken g g'.
Proof.
  intros dbg bits g a pages k r g' a' R EK K1 K2 HW E NP. unfold reserve_pages in E.
  assert (SAME : forall e : efi_error, (Err e, g, a) = (r, g', a') -> same_id a a' /\ reach dbg bits g' /\ keeps_taken g g').
  { intros e Q. inversion Q; subst. split; [apply same_id_refl|]. split; [exact R|apply keeps_refl]. }
  destruct (al_range a); [eapply SAME; eauto|].
  destruct (size_to_pages dbg (al_gran a)) as [q| |]; cbn [bind] in E; [|eapply SAME; eauto|inversion E; subst; contradiction].
  destruct (align_up 64 pages q) as [n| |]; cbn [bind] in E; [|eapply SAME; eauto|inversion E; subst; contradiction].
  destruct (pages_to_size dbg n) as [len| |] eqn:EL; cbn [bind] in E; [|eapply SAME; eauto|inversion E; subst; contradiction].
  apply pages_to_size_word in EL. rewrite EK, page_shift_unit in E by exact K1. cbn [bind] in E.
  assert (W : op_wf (OpAllocate (TopDown None) SystemMemory k len (al_handle a) None)).
  { cbn [op_wf]. split; [unfold word; change two64 with 18446744073709551616; lia|]. auto. }
  destruct (gcd_step g (OpAllocate (TopDown None) SystemMemory k len (al_handle a) None)) as [rg g1] eqn:E4. destruct rg as [v|e|].
  3: { inversion E; subst. contradiction. }
  2: { pose proof (alloc_err _ _ _ _ _ _ _ _ _ _ R W E4) as ->. eapply SAME; eauto. }
  destruct (gcd_took_any _ _ _ _ _ _ _ _ _ _ R W E4) as (T & LE). pose proof (reach_step _ _ _ _ _ _ R W E4 ltac:(discriminate)) as R1.
  destruct (v =? 0); [inversion E; subst; contradiction|].
  destruct (reach_map _ _ _ R1) as (HM & Hmax & EM & _).
  assert (WF : op_wf (OpFreePreserving v len)) by (split; [unfold word; lia|exact EL]).
  destruct (gcd_step g1 (OpFreePreserving v len)) as [rf g2] eqn:E5.
  assert (NPF : rf <> Panic) by (intros ->; inversion E; subst; contradiction).
  assert (X : g' = g2 /\ same_id a a').
  { destruct rf as [u|e|]; [|inversion E; subst; split; [reflexivity|apply same_id_refl]|contradiction].
    destruct (let* p := size_to_pages dbg len in let* c := uadd dbg (al_claimed a) p in update_info dbg (with_range a v len c)) as [a1|e|] eqn:EU;
      inversion E; subst; (split; [reflexivity|]); try apply same_id_refl.
    unfold update_info in EU.
    repeat match goal with
    | H : bind ?x _ = Ok _ |- _ => let E := fresh "E" in destruct x eqn:E; cbn [bind] in H; try discriminate
    | H : Ok _ = Ok _ |- _ => injection H as <-
    end; repeat split. }
  destruct X as (-> & X). split; [exact X|]. split; [exact (reach_step _ _ _ _ _ _ R1 WF E5 NPF)|].
  intros x st Hx Ax. pose proof (took_keeps_taken _ _ _ _ _ _ T x st Hx Ax) as Hx1.
  destruct (step_at g1 (OpFreePreserving v len) rf g2 x HM Hmax WF E5 NPF) as [->|(b & l & s1 & s2 & u & C1 & C2 & _)]; [exact Hx1|].
  exfalso. cbn [call_range] in C1. injection C1 as <- <-. destruct T as (s0 & T1 & _ & T3 & _). destruct (T3 x C2) as (Q & _). congruence.
Qed.

Lemma sane_gran : forall dbg bits p s a, sane dbg bits p s -> In a (s_als s) -> exists k, al_gran a = 2 ^ k /\ 12 <= k /\ k < 64 /\ word (al_handle a).
Proof.
  intros dbg bits p s a S Ha. destruct (sn_als _ _ _ _ S a Ha) as (H & G). destruct (unit_pow p (al_type a)) as (U1 & U2).
  exists (unit_shift p (al_type a)). rewrite G, H. destruct (holder_ok p (al_type a) (sn_fresh _ _ _ _ S)). repeat split; auto; lia.
Qed.

Lemma boxes_keep : forall dbg bits p l s i s', sane dbg bits p s -> take_boxes dbg p s l i = Some s' ->
  sane dbg bits p s' /\ keeps_taken (s_g s) (s_g s').
Proof.
  intros dbg bits p. induction l as [|[size align] l IH]; intros s i s' SN E; cbn [take_boxes] in E; [inversion E; subst; split; [exact SN|apply keeps_refl]|].
  destruct (sys_step dbg s (SAlloc 4 size align (p_place p i))) as [out s1] eqn:ES. destruct out; try discriminate.
  destruct s as [g m als]. cbn [sys_step s_g s_m s_als] in ES.
  destruct (with_alloc als 4 _) as [[[r g'] l']|] eqn:EW; [|discriminate].
  destruct (with_alloc_spec _ _ _ _ _ _ EW) as (pre & a & post & a' & -> & ET & EF & ->).
  destruct (allocate dbg (p_place p i) g a size align) as [[r0 g0] a0] eqn:EA. inversion EF; subst r0 g0 a0.
  assert (Ha : In a (pre ++ a :: post)) by (apply in_mid; auto). destruct (sane_gran _ _ _ _ _ SN Ha) as (k & G1 & G2 & G3 & G4).
  assert (NP : r <> Panic) by (intros ->; discriminate ES).
  destruct (allocate_keeps _ _ _ _ _ _ _ _ _ _ _ (sn_reach _ _ _ _ SN) G1 G2 G3 G4 EA NP) as (A & B & C).
  assert (X : s1 = Sys g' m (pre ++ a' :: post)) by (inversion ES; reflexivity). subst s1.
  assert (SN1 : sane dbg bits p (Sys g' m (pre ++ a' :: post))) by (eapply sane_next; [exact SN|exact B|apply same_ids_mid; exact A]).
  destruct (IH _ _ _ SN1 E) as (Y & Z). split; [exact Y|]. eapply keeps_trans; [exact C|exact Z].
Qed.

Lemma created_keep : forall dbg bits p s ty h s', sane dbg bits p s -> handle_for p ty = Some h -> get_or_create dbg p s ty h = Some s' ->
  sane dbg bits p s' /\ keeps_taken (s_g s) (s_g s').
Proof.
  intros dbg bits p s ty h s' SN EH E. unfold get_or_create in E. destruct (existsb _ _); [inversion E; subst; split; [exact SN|apply keeps_refl]|].
  destruct (take_boxes dbg p s (p_boxes p ty) 0) as [s1|] eqn:EB; [|discriminate]. destruct (boxes_keep _ _ _ _ _ _ _ SN EB) as (A & B).
  inversion E; subst s'. cbn [sys_step]. destruct (existsb _ (s_als s1)); cbn [snd]; [auto|]. split; [|exact B].
  destruct A as [A1 A2 A3]. split; cbn [s_g s_als]; auto. intros a Ha. apply in_app_or in Ha. destruct Ha as [Ha|[<-|[]]]; [auto|].
  cbn [new_alloc al_handle al_gran al_type]. split; [apply handle_holder; exact EH|apply granularity_unit].
Qed.

Lemma buckets_keep : forall dbg bits p l s s', sane dbg bits p s -> make_buckets dbg p s l = Some s' ->
  sane dbg bits p s' /\ keeps_taken (s_g s) (s_g s').
Proof.
  intros dbg bits p. induction l as [|[ty pages] l IH]; intros s s' SN E; cbn [make_buckets] in E; [inversion E; subst; split; [exact SN|apply keeps_refl]|].
  destruct (pages =? 0); [auto|]. destruct (handle_for p ty) as [h|] eqn:EH; [|auto].
  destruct (get_or_create dbg p s ty h) as [s1|] eqn:EG; [|discriminate]. destruct (created_keep _ _ _ _ _ _ _ SN EH EG) as (SN1 & K1).
  destruct (carry_on (sys_step dbg s1 (SReserve ty pages))) as [s2|] eqn:EC; [|discriminate]. apply carry_some in EC. destruct EC as (out & EC & NC).
  assert (X : sane dbg bits p s2 /\ keeps_taken (s_g s1) (s_g s2)).
  { destruct s1 as [g m als]. cbn [sys_step s_g s_m s_als] in EC.
    destruct (with_alloc als ty _) as [[[r g'] l']|] eqn:EW; [|inversion EC; subst; split; [exact SN1|apply keeps_refl]].
    destruct (with_alloc_spec _ _ _ _ _ _ EW) as (pre & a & post & a' & -> & ET & EF & ->).
    destruct (reserve_pages dbg g a pages) as [[r0 g0] a0] eqn:EA. inversion EF; subst r0 g0 a0.
    assert (Ha : In a (pre ++ a :: post)) by (apply in_mid; auto). destruct (sane_gran _ _ _ _ _ SN1 Ha) as (k & G1 & G2 & G3 & G4).
    assert (NP : r <> Panic) by (intros ->; inversion EC; subst; contradiction).
    destruct (reserve_keeps _ _ _ _ _ _ _ _ _ (sn_reach _ _ _ _ SN1) G1 G2 G3 G4 EA NP) as (A & B & C).
    inversion EC; subst s2. cbn [s_g]. split; [|exact C]. eapply sane_next; [exact SN1|exact B|apply same_ids_mid; exact A]. }
  destruct X as (SN2 & K2). destruct (IH _ _ SN2 E) as (Y & Z). split; [exact Y|]. eapply keeps_trans; [exact K1|]. eapply keeps_trans; [exact K2|exact Z].
Qed.

(** ** A release build does not panic *)
Lemma descriptor_word : forall dbg bits p s a, ready dbg bits p s -> word a -> exists d, get_memory_descriptor_for_address (s_g s) a = Ok d.
Proof.
  intros dbg bits p s a R W. destruct (ready_bits _ _ _ _ R) as (HM & Hmax & _).
  destruct (closest_sst (s_g s) a 1 (TAllocate 1 None) HM Hmax W eq_refl) as (pre & x & post & E & C & L & _).
  unfold get_memory_descriptor_for_address. destruct (N.eqb_spec (g_max (s_g s)) 0); [lia|]. rewrite C, L. eauto.
Qed.

Lemma notify_release : forall a b len, notify_allocation false a b len <> Panic.
Proof.
  intros a b len. unfold notify_allocation, update_info, size_to_pages, uadd, usub.
  repeat match goal with |- context [if ?c then _ else _] => destruct c; cbn [bind] end; discriminate.
Qed.

Lemma step_release : forall bits g o, reach false bits g -> op_wf o -> fst (gcd_step g o) <> Panic.
Proof.
  intros bits g o R W. destruct (reach_map _ _ _ R) as (HM & Hmax & _ & D). apply step_no_panic; auto. split; [exact Hmax|left; exact HM].
Qed.

Lemma pages_release : forall bits p s ty pages base, ready false bits p s -> (allocatable ty -> exists a, In a (s_als s) /\ al_type a = ty) ->
  word base -> pages * 4096 < two64 -> fst (core_allocate_pages_at false p s ty pages base) <> Crashed.
Proof.
  intros bits p s ty pages base R KN WB WP. unfold core_allocate_pages_at.
  destruct ((ty =? 7) || (ty =? 14) || (ty =? 15)) eqn:RJ; [discriminate|]. destruct (handle_for p ty) as [h|] eqn:EH; [|discriminate].
  assert (AL : allocatable ty).
  { split; [lia|]. intros X. unfold handle_for in EH. repeat match type of EH with (if ty =? ?n then _ else _) = _ => destruct (N.eqb_spec ty n); [lia|] end.
    destruct ((14 <=? ty) && (ty <=? 0x6FFFFFFF)) eqn:Q; [discriminate|lia]. }
  specialize (KN AL).
  assert (GC : get_or_create false p s ty h = Some s).
  { unfold get_or_create. destruct KN as (a & Ha & T). assert (Q : existsb (fun a => al_type a =? ty) (s_als s) = true) by (apply existsb_exists; exists a; split; [exact Ha|lia]). now rewrite Q. }
  rewrite GC. pose proof (ready_reach _ _ _ _ R) as RC. pose proof (ready_sane _ _ _ _ R) as SN. destruct s as [g m l]. cbn [sys_step s_g s_m s_als] in *.
  apply rejected_iff in AL. rewrite AL. destruct (with_alloc l ty _) as [[[r g'] l']|] eqn:EW; [|discriminate].
  destruct (with_alloc_spec _ _ _ _ _ _ EW) as (pre & a & post & a' & -> & ET & EF & ->). cbv beta in EF.
  destruct (allocate_pages false g a (AtAddress base) pages 4096) as [[r0 g0] a0] eqn:EA. inversion EF; subst r0 g0 a0.
  assert (NP : r <> Panic); [|destruct r as [[? ?]| |]; [discriminate|discriminate|contradiction]].
  intros ->. assert (Ha : In a (pre ++ a :: post)) by (apply in_mid; auto). destruct (sane_gran _ _ _ _ _ SN Ha) as (k & G1 & K1 & K2 & HW).
  unfold allocate_pages in EA. cbv zeta in EA. rewrite G1 in EA.
  assert (EM : N.max (2 ^ k) 4096 = 2 ^ k) by (apply N.max_l; change 4096 with (2 ^ 12); apply N.pow_le_mono_r; lia). rewrite EM in EA.
  destruct (pages_request false k pages K1 K2 WP) as (n & EN & ER).
  destruct (size_to_pages false (2 ^ k)) as [q| |]; try discriminate. cbn [bind] in EN, EA. rewrite EN in EA. cbn [bind] in EA.
  rewrite page_shift_unit in EA by exact K1. cbn [bind] in EA.
  destruct (base mod 2 ^ k =? 0); cbn [bind] in EA; [|discriminate].
  destruct (pages_to_size false n) as [len|e|] eqn:EL; cbn [bind] in EA; [|discriminate|unfold pages_to_size, umul in EL; destruct (_ <? _); discriminate].
  pose proof (pages_to_size_word _ _ _ EL) as LW.
  assert (W : op_wf (OpAllocate (AtAddress base) SystemMemory k len (al_handle a) None)).
  { cbn [op_wf]. split; [unfold word; change two64 with 18446744073709551616; lia|]. auto. }
  pose proof (step_release bits g _ RC W) as NPG. destruct (gcd_step g (OpAllocate (AtAddress base) SystemMemory k len (al_handle a) None)) as [[v|e|] g2] eqn:ES;
    [|discriminate EA|contradiction].
  destruct (v =? 0); [discriminate EA|]. pose proof (notify_release a v len). destruct (notify_allocation false a v len) as [a2| |]; [discriminate EA|discriminate EA|contradiction].
Qed.

Lemma direct_release : forall bits p s ty base len own, ready false bits p s -> word base -> word len -> word own ->
  fst (sys_step false s (SGcd (OpAllocate (AtAddress base) ty 0 len own None))) <> Crashed.
Proof.
  intros bits p s ty base len own R WB WL WO. cbn [sys_step].
  pose proof (step_release bits (s_g s) (OpAllocate (AtAddress base) ty 0 len own None) (ready_reach _ _ _ _ R) ltac:(cbn [op_wf]; repeat split; auto)) as NP.
  destruct (gcd_step (s_g s) _) as [[v|e|] g']; [discriminate|discriminate|contradiction].
Qed.

Lemma carry_release : forall x, fst x <> Crashed -> exists s', carry_on x = Some s'.
Proof. intros [o s] H. unfold carry_on. cbn [fst snd] in *. destruct o; eauto. contradiction. Qed.

Lemma one_release : forall bits p s h, ready false bits p s -> phob_wf h -> types_known s [h] -> exists s', process_one false p s h = Some s'.
Proof.
  intros bits p s h R W KN. destruct h as [ty b l|b l|]; cbn [process_one phob_wf] in *; [| |eauto].
  - destruct W as (W1 & W2 & W3). unfold process_allocation. destruct (ty =? 7); [eauto|]. destruct (l =? 0); [eauto|]. destruct (b =? 0); [eauto|].
    destruct (negb (N.land b 0xFFF =? 0) || negb (N.land l 0xFFF =? 0)) eqn:AL; [eauto|].
    apply orb_false_iff in AL. destruct AL as (AL1 & AL2). apply low_mask in AL1, AL2.
    destruct (descriptor_word _ _ _ _ b R W2) as (d & ->). destruct (_ && _ && _); [eauto|].
    assert (D : forall t, exists s', carry_on (sys_step false s (SGcd (OpAllocate (AtAddress b) t 0 l DXE_CORE_HANDLE None))) = Some s').
    { intros t. apply carry_release. eapply direct_release; eauto. reflexivity. }
    destruct (ms_type (b_st d)); eauto. destruct (whole_pages false l W3 AL2) as (-> & SM). apply carry_release. eapply pages_release; eauto.
    + intros A. apply (KN ty b l); [left; reflexivity|exact A].
    + rewrite SM. exact W3.
  - destruct W as (W2 & W3). unfold process_volume. destruct (descriptor_word _ _ _ _ b R W2) as (d & ->). destruct (_ || _); [eauto|].
    apply carry_release. eapply direct_release; eauto. reflexivity.
Qed.

Lemma list_release : forall bits p l s, ready false bits p s -> Forall phob_wf l -> types_known s l -> exists s', process_list false p s l = Some s'.
Proof.
  intros bits p. induction l as [|h l IH]; intros s R W K; cbn [process_list]; [eauto|]. apply Forall_cons_iff in W. destruct W as (W1 & W2).
  destruct (known_tail _ _ _ K) as (K1 & K2). destruct (one_release bits p s h R W1 K1) as (s1 & E1). rewrite E1.
  destruct (one_step false bits p s h s1 R W1 K1 E1) as (A & (B1 & _) & _). apply IH; auto. eapply known_next; eauto.
Qed.

Lemma page_zero_release : forall bits p s, ready false bits p s -> exists s', take_page_zero false p s = Some s'.
Proof.
  intros bits p s R. unfold take_page_zero. destruct (descriptor_word _ _ _ _ 0 R eq_refl) as (d & ->). destruct (ms_type (b_st d)); eauto.
  apply carry_release. eapply pages_release; eauto; [intros _; exact (rd_data _ _ _ _ R)|reflexivity|reflexivity].
Qed.
