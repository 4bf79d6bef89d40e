(** * The invariant of concurrent writers *)

From Verif Require Import Base.Prelude Base.Bytes Align.Model Log.Spec Log.Model Log.Proofs Log.Conc.
From Coq Require Import Permutation.
Open Scope N_scope.

Definition dummy : entry := Entry 0 0 0 [].
Definition msg (es : list entry) (i : nat) : entry := nth i es dummy.
Definition msgs (es : list entry) (ord : list nat) : list entry := map (msg es) ord.

(** Index of the slot of writer [i] when slots are taken in the order [ord]. *)
Fixpoint slot_of (es : list entry) (base : N) (ord : list nat) (i : nat) : N :=
  match ord with
  | [] => base
  | j :: r => if Nat.eqb j i then base else slot_of es (base + slot_size (msg es j)) r i
  end.

Lemma slot_of_app es r i : forall ord b, In i ord -> slot_of es b (ord ++ r) i = slot_of es b ord i.
Proof.
  induction ord as [|j ord IH]; intros b H; [destruct H|]. cbn [app slot_of].
  destruct (Nat.eqb_spec j i); [reflexivity|]. destruct H as [H|H]; [congruence|]. auto.
Qed.

Lemma slot_of_new es r i : forall ord b, ~ In i ord ->
  slot_of es b (ord ++ i :: r) i = b + total_size (msgs es ord).
Proof.
  induction ord as [|j ord IH]; intros b H; cbn [app slot_of msgs map total_size].
  - rewrite Nat.eqb_refl. lia.
  - destruct (Nat.eqb_spec j i) as [E|E]; [subst; exfalso; apply H; left; auto|].
    rewrite IH by (intros K; apply H; right; auto). unfold msgs. lia.
Qed.

Lemma slot_of_bounds es i : forall ord b, In i ord ->
  b <= slot_of es b ord i /\ slot_of es b ord i + slot_size (msg es i) <= b + total_size (msgs es ord).
Proof.
  induction ord as [|j ord IH]; intros b H; [destruct H|]. cbn [slot_of msgs map total_size].
  destruct (Nat.eqb_spec j i) as [E|E]; [subst; lia|]. destruct H as [H|H]; [congruence|].
  specialize (IH (b + slot_size (msg es j)) H). unfold msgs in *. lia.
Qed.

Lemma slot_of_aligned es i : forall ord b, b mod 8 = 0 -> slot_of es b ord i mod 8 = 0.
Proof.
  induction ord as [|j ord IH]; intros b H; cbn [slot_of]; [auto|].
  destruct (Nat.eqb j i); auto. apply IH. pose proof (slot_size_bounds (msg es j)). lia.
Qed.

Lemma slot_of_disjoint es i j : forall ord b, In i ord -> In j ord -> i <> j ->
  slot_of es b ord i + slot_size (msg es i) <= slot_of es b ord j
  \/ slot_of es b ord j + slot_size (msg es j) <= slot_of es b ord i.
Proof.
  induction ord as [|k ord IH]; intros b Hi Hj E; [destruct Hi|]. cbn [slot_of].
  destruct (Nat.eqb_spec k i) as [E1|E1], (Nat.eqb_spec k j) as [E2|E2]; subst; try congruence.
  - left. destruct Hj as [Hj|Hj]; [congruence|].
    pose proof (slot_of_bounds es j ord (b + slot_size (msg es i)) Hj). lia.
  - right. destruct Hi as [Hi|Hi]; [congruence|].
    pose proof (slot_of_bounds es i ord (b + slot_size (msg es j)) Hi). lia.
  - destruct Hi as [Hi|Hi]; [congruence|]. destruct Hj as [Hj|Hj]; [congruence|]. auto.
Qed.

Lemma msgs_ok es ord : Forall entry_ok es -> (forall i, In i ord -> (i < length es)%nat) ->
  Forall entry_ok (msgs es ord).
Proof.
  intros H Ho. apply Forall_forall. intros x Hx. unfold msgs in Hx. apply in_map_iff in Hx.
  destruct Hx as (i & Hi & Hin). subst. rewrite Forall_forall in H. apply H. apply nth_In. auto.
Qed.

Lemma slots_bytes es f : forall ord b, Forall entry_ok es -> (forall i, In i ord -> (i < length es)%nat) ->
  NoDup ord ->
  (forall i, In i ord -> bytes_at f (slot_of es b ord i) (slot_image (msg es i))) ->
  bytes_at f b (log_image (msgs es ord)).
Proof.
  induction ord as [|j ord IH]; intros b Hok Hl Hnd H; unfold msgs, log_image in *; cbn [map flat_map].
  - intros k Hk. cbn in Hk. lia.
  - inversion Hnd as [|? ? Hn Hnd']; subst. apply bytes_at_app. split.
    + specialize (H j (or_introl eq_refl)). cbn [slot_of] in H. rewrite Nat.eqb_refl in H. exact H.
    + assert (Hj : entry_ok (msg es j)).
      { rewrite Forall_forall in Hok. apply Hok. apply nth_In. apply Hl. left. auto. }
      rewrite slot_image_length by apply Hj. apply IH; auto.
      * intros i Hi. apply Hl. right. auto.
      * intros i Hi. specialize (H i (or_intror Hi)). cbn [slot_of] in H.
        destruct (Nat.eqb_spec j i) as [E|E]; [subst; contradiction|]. exact H.
Qed.

(** ** updating one writer *)

Lemma upd_length {A} (x : A) : forall l i, length (upd i x l) = length l.
Proof. induction l; destruct i; cbn; auto. Qed.

Lemma upd_same {A} (x y : A) : forall l i, nth_error l i = Some y -> nth_error (upd i x l) i = Some x.
Proof. induction l; destruct i; cbn; intros; try discriminate; auto. Qed.

Lemma upd_other {A} (x : A) : forall l i j, i <> j -> nth_error (upd i x l) j = nth_error l j.
Proof. induction l; destruct i, j; cbn; intros; auto; congruence. Qed.

Lemma upd_map_fst {A B} (x : A * B) : forall l i y, nth_error l i = Some y -> fst x = fst y ->
  map fst (upd i x l) = map fst l.
Proof.
  induction l; destruct i; cbn; intros y H E; try discriminate.
  - injection H as ->. now rewrite E.
  - f_equal. eauto.
Qed.

Definition lost (x : entry * pstate) : N :=
  match snd x with PErr _ => slot_size (fst x) | _ => 0 end.
Fixpoint lost_sum (ps : list (entry * pstate)) : N :=
  match ps with [] => 0 | x :: r => lost x + lost_sum r end.

Lemma lost_upd x y : forall l i, nth_error l i = Some y -> lost_sum (upd i x l) + lost y = lost_sum l + lost x.
Proof.
  induction l as [|z l IH]; destruct i; cbn; intros H; try discriminate.
  - injection H as ->. lia.
  - specialize (IH _ H). lia.
Qed.

(** ** The invariant *)

Definition reserved (p : pstate) : bool := match p with PWrite _ _ | POk => true | _ => false end.

Definition todo_of (p : pstate) : list N := match p with PWrite _ t => t | _ => [] end.

Section Inv.
Variables (dbg : bool) (off size : N) (old es : list entry) (disc0 : N) (data0 : N -> N).

Let c := Cfg dbg off size size true.
Let base := total_size old.

Definition wstate (g : shared) (ord : list nat) (i : nat) (e : entry) (p : pstate) : Prop :=
  match p with
  | PStart => True
  | PLoop v => off <= v <= s_cur g
  | PDiscard => off + size < s_cur g + slot_size e
  | PWrite idx todo => idx = slot_of es base ord i /\ (forall k, In k todo -> k < slot_size e)
  | POk => True
  | PErr x => x = OutOfResources /\ off + size < s_cur g + slot_size e
  | PPanic => False
  end.

Record inv (s : system) (ord : list nat) : Prop := {
  v_es : map fst (snd s) = es;
  v_nodup : NoDup ord;
  v_ord : forall i, In i ord <-> exists e p, nth_error (snd s) i = Some (e, p) /\ reserved p = true;
  v_cur : s_cur (fst s) = off + base + total_size (msgs es ord);
  v_fit : s_cur (fst s) <= off + size;
  v_hist : Forall (fun v => off <= v <= s_cur (fst s)) (s_hist (fst s));
  v_seen : In (s_cur (fst s)) (s_hist (fst s));
  v_w : forall i e p, nth_error (snd s) i = Some (e, p) -> wstate (fst s) ord i e p;
  v_bytes : forall i e p, nth_error (snd s) i = Some (e, p) -> reserved p = true ->
    forall k, k < slot_size e -> ~ In k (todo_of p) ->
    s_data (fst s) (slot_of es base ord i + k) = nth (N.to_nat k) (slot_image e) 0;
  v_rest : forall a, (forall i, In i ord -> a < slot_of es base ord i \/ slot_of es base ord i + slot_size (msg es i) <= a) ->
    s_data (fst s) a = data0 a;
  v_disc : s_disc (fst s) = (disc0 + lost_sum (snd s)) mod 2 ^ 32 }.

Hypothesis Hes : Forall entry_ok es.
Hypothesis Hsz : off + size + 2 ^ 17 < 2 ^ 32.

Lemma es_nth s ord i e p : inv s ord -> nth_error (snd s) i = Some (e, p) ->
  msg es i = e /\ (i < length es)%nat /\ entry_ok e.
Proof.
  intros V H. pose proof (v_es _ _ V) as E.
  assert (K : nth_error es i = Some e).
  { rewrite <- E. erewrite map_nth_error; eauto. reflexivity. }
  repeat split.
  - unfold msg. eapply nth_error_nth; eauto.
  - apply nth_error_Some. congruence.
  - rewrite Forall_forall in Hes. apply Hes. eapply nth_error_In; eauto.
  - rewrite Forall_forall in Hes. apply Hes. eapply nth_error_In; eauto.
  - rewrite Forall_forall in Hes. apply Hes. eapply nth_error_In; eauto.
  - rewrite Forall_forall in Hes. apply Hes. eapply nth_error_In; eauto.
  - rewrite Forall_forall in Hes. apply Hes. eapply nth_error_In; eauto.
Qed.

Lemma cfg_full_ok : cfg_full c = Some (off + size).
Proof.
  unfold cfg_full, add32, two32, c. cbn [c_dbg c_off c_size].
  replace (off + size <? 2 ^ 32) with true; [reflexivity|]. symmetry. apply N.ltb_lt.
  change (2 ^ 17) with 131072 in Hsz. lia.
Qed.

(** A step that changes neither shared memory nor what is reserved. *)
Lemma inv_local g ps ord i e p p' :
  inv (g, ps) ord -> nth_error ps i = Some (e, p) ->
  reserved p' = reserved p -> lost (e, p') = lost (e, p) -> todo_of p' = todo_of p -> wstate g ord i e p' ->
  inv (g, upd i (e, p') ps) ord.
Proof.
  intros V Hi Hr Hl Ht Hw. destruct V. cbn [fst snd] in *. split; cbn [fst snd]; auto.
  - rewrite <- v_es0. eapply upd_map_fst; eauto.
  - intros j. rewrite v_ord0. destruct (Nat.eq_dec i j) as [<-|E].
    + erewrite upd_same by eauto. split; intros (e1 & p1 & H1 & H2).
      * rewrite Hi in H1. injection H1 as <- <-. exists e, p'. split; congruence.
      * injection H1 as <- <-. exists e, p. split; congruence.
    + rewrite upd_other by auto. reflexivity.
  - intros j e1 p1 Hj. destruct (Nat.eq_dec i j) as [<-|E].
    + erewrite upd_same in Hj by eauto. injection Hj as <- <-. exact Hw.
    + rewrite upd_other in Hj by auto. eauto.
  - intros j e1 p1 Hj. destruct (Nat.eq_dec i j) as [<-|E].
    + erewrite upd_same in Hj by eauto. injection Hj as <- <-. rewrite Hr, Ht. eauto.
    + rewrite upd_other in Hj by auto. eauto.
  - rewrite v_disc0. f_equal. pose proof (lost_upd (e, p') (e, p) ps i Hi). lia.
Qed.

Lemma seen_bound g ps ord v : inv (g, ps) ord -> seen v g = true -> off <= v <= s_cur g.
Proof.
  intros V H. unfold seen in H. apply existsb_exists in H. destruct H as (x & Hx & E).
  apply N.eqb_eq in E. subst. pose proof (v_hist _ _ V) as F. cbn [fst] in F.
  rewrite Forall_forall in F. auto.
Qed.

Lemma add_cur g ps ord v e : inv (g, ps) ord -> off <= v <= s_cur g -> entry_ok e ->
  add32 dbg v (slot_size e) = Some (v + slot_size e).
Proof.
  intros V Hv He. pose proof (v_fit _ _ V) as F. cbn [fst] in F. destruct He as (_ & _ & _ & _ & H5).
  pose proof (slot_size_bounds e). unfold add32, two32. change (2 ^ 17) with 131072 in Hsz.
  change (2 ^ 16) with 65536 in H5.
  replace (v + slot_size e <? 2 ^ 32) with true; [reflexivity|]. symmetry. apply N.ltb_lt. lia.
Qed.

Lemma not_reserved_out g ps ord i e p : inv (g, ps) ord -> nth_error ps i = Some (e, p) ->
  reserved p = false -> ~ In i ord.
Proof.
  intros V Hi Hr Hin. apply (v_ord _ _ V) in Hin. cbn [snd] in Hin. destruct Hin as (e1 & p1 & H1 & H2). congruence.
Qed.

Lemma reserved_in g ps ord i e p : inv (g, ps) ord -> nth_error ps i = Some (e, p) ->
  reserved p = true -> In i ord.
Proof. intros V Hi Hr. apply (v_ord _ _ V). cbn [snd]. eauto. Qed.

(** Successful reservation. *)
Lemma inv_reserve g ps ord i e : 
  inv (g, ps) ord -> nth_error ps i = Some (e, PLoop (s_cur g)) ->
  s_cur g + slot_size e <= off + size ->
  exists idx, idx = slot_of es base (ord ++ [i]) i /\
  after_reserve c e (s_cur g) (slot_size e) = PWrite idx (map N.of_nat (seq 0 (N.to_nat (slot_size e)))) /\
  inv (Shared (s_cur g + slot_size e) (s_cur g + slot_size e :: s_hist g) (s_disc g) (s_data g),
       upd i (e, PWrite idx (map N.of_nat (seq 0 (N.to_nat (slot_size e))))) ps) (ord ++ [i]).
Proof.
  intros V Hi Hfit. destruct (es_nth _ _ _ _ _ V Hi) as (Hm & Hlt & He).
  pose proof (not_reserved_out _ _ _ _ _ _ V Hi eq_refl) as Hn.
  pose proof (slot_size_bounds e) as (S1 & S2 & S3).
  exists (base + total_size (msgs es ord)). split; [symmetry; apply slot_of_new; auto|].
  assert (T : forall k, In k (map N.of_nat (seq 0 (N.to_nat (slot_size e)))) <-> k < slot_size e).
  { intros k. rewrite in_map_iff. split.
    - intros (x & <- & Hx). apply in_seq in Hx. lia.
    - intros Hk. exists (N.to_nat k). split; [lia|]. apply in_seq. lia. }
  destruct V. cbn [fst snd] in *. split.
  { unfold after_reserve, c. cbn [c_dbg c_off c_rw c_len negb].
    unfold sub32. replace (off <=? s_cur g) with true by lia.
    replace (s_cur g - off) with (base + total_size (msgs es ord)) by lia.
    replace (size <? base + total_size (msgs es ord) + slot_size e) with false by lia.
    replace (slot_size e <? ENTRY_SIZE + e_len e) with false by (unfold ENTRY_SIZE; lia). reflexivity. }
  assert (Hord : forall j, In j (ord ++ [i]) <-> In j ord \/ j = i).
  { intros j. rewrite in_app_iff. cbn. intuition. }
  assert (Hso : forall j, In j ord -> slot_of es base (ord ++ [i]) j = slot_of es base ord j).
  { intros j Hj. apply slot_of_app. auto. }
  split; cbn [fst snd s_cur s_hist s_disc s_data].
  - rewrite <- v_es0. eapply upd_map_fst; eauto.
  - apply NoDup_rev in v_nodup0. rewrite <- (rev_involutive (ord ++ [i])). apply NoDup_rev.
    rewrite rev_app_distr. cbn. constructor; auto. rewrite <- in_rev. auto.
  - intros j. rewrite Hord. destruct (Nat.eq_dec i j) as [<-|E].
    + erewrite upd_same by eauto. split; [|auto]. intros _. do 2 eexists. split; eauto.
    + rewrite upd_other by auto. rewrite v_ord0. intuition congruence.
  - unfold msgs. rewrite map_app, total_size_app. cbn [map total_size]. rewrite Hm. unfold msgs in *. lia.
  - lia.
  - constructor; [lia|]. eapply Forall_impl; [|exact v_hist0]. cbn. intros; lia.
  - left. reflexivity.
  - intros j e1 p1 Hj. destruct (Nat.eq_dec i j) as [<-|E].
    + erewrite upd_same in Hj by eauto. injection Hj as <- <-. cbn [wstate]. split.
      * symmetry. apply slot_of_new; auto.
      * intros k. apply T.
    + rewrite upd_other in Hj by auto. specialize (v_w0 _ _ _ Hj).
      destruct p1; cbn [wstate s_cur] in *; auto; try lia.
      * destruct v_w0 as [W1 W2]. split; auto. rewrite Hso; auto. apply v_ord0. do 2 eexists. split; eauto.
      * destruct v_w0. split; auto. lia.
  - intros j e1 p1 Hj Hr k Hk Hnt. destruct (Nat.eq_dec i j) as [<-|E].
    + erewrite upd_same in Hj by eauto. injection Hj as <- <-. exfalso. apply Hnt. cbn. apply T. auto.
    + rewrite upd_other in Hj by auto. rewrite Hso; [eauto|]. apply v_ord0. do 2 eexists. split; eauto.
  - intros a Ha. apply v_rest0. intros j Hj. specialize (Ha j). rewrite Hord in Ha.
    specialize (Ha (or_introl Hj)). rewrite Hso in Ha; auto.
  - rewrite v_disc0. f_equal. pose proof (lost_upd (e, PWrite (base + total_size (msgs es ord))
      (map N.of_nat (seq 0 (N.to_nat (slot_size e))))) _ ps i Hi) as L. unfold lost in L. cbn [fst snd] in L. lia.
Qed.

(** One byte stored. *)
Lemma inv_byte g ps ord i e idx todo k :
  inv (g, ps) ord -> nth_error ps i = Some (e, PWrite idx todo) -> In k todo ->
  inv (Shared (s_cur g) (s_hist g) (s_disc g) (write_at (s_data g) (idx + k) [nth (N.to_nat k) (slot_image e) 0]),
       upd i (e, PWrite idx (filter (fun j => negb (j =? k)) todo)) ps) ord.
Proof.
  intros V Hi Hk. destruct (es_nth _ _ _ _ _ V Hi) as (Hm & Hlt & He).
  pose proof (reserved_in _ _ _ _ _ _ V Hi eq_refl) as Hin.
  pose proof (v_w _ _ V _ _ _ Hi) as [W1 W2]. cbn [fst] in *.
  pose proof (W2 _ Hk) as Wk.
  assert (Esnd := fun j e1 p1 (H : nth_error ps j = Some (e1, p1)) => es_nth _ _ _ _ _ V H).
  destruct V. cbn [fst snd] in *. split; cbn [fst snd s_cur s_hist s_disc s_data]; auto.
  - rewrite <- v_es0. eapply upd_map_fst; eauto.
  - intros j. rewrite v_ord0. destruct (Nat.eq_dec i j) as [<-|E].
    + erewrite upd_same by eauto. split; intros (e1 & p1 & H1 & H2); do 2 eexists; split; eauto.
    + rewrite upd_other by auto. reflexivity.
  - intros j e1 p1 Hj. destruct (Nat.eq_dec i j) as [<-|E].
    + erewrite upd_same in Hj by eauto. injection Hj as <- <-. cbn [wstate]. split; auto.
      intros m Hm2. apply filter_In in Hm2. apply W2. tauto.
    + rewrite upd_other in Hj by auto. specialize (v_w0 _ _ _ Hj). destruct p1; cbn [wstate s_cur] in *; auto.
  - intros j e1 p1 Hj Hr m Hmk Hnt. destruct (Nat.eq_dec i j) as [<-|E].
    + erewrite upd_same in Hj by eauto. injection Hj as <- <-. cbn [todo_of] in Hnt. rewrite <- W1.
      destruct (N.eq_dec m k) as [->|Ek].
      * pose proof (write_at_spec (s_data g) (idx + k) [nth (N.to_nat k) (slot_image e) 0] 0) as B.
        rewrite N.add_0_r in B. rewrite B by (cbn; lia). reflexivity.
      * rewrite write_at_other by (cbn [length]; lia). rewrite W1. eapply v_bytes0; eauto. cbn [todo_of].
        intros Hi2. apply Hnt. apply filter_In. split; auto. apply negb_true_iff. now apply N.eqb_neq.
    + rewrite upd_other in Hj by auto. rewrite write_at_other; [eauto|].
      assert (Hinj : In j ord) by (apply v_ord0; eauto).
      pose proof (slot_of_disjoint es i j ord base Hin Hinj E) as D.
      destruct (Esnd _ _ _ Hj) as (Hmj & _ & _). rewrite Hm, Hmj in D. cbn [length]. lia.
  - intros a Ha. rewrite write_at_other; [auto|]. specialize (Ha i Hin). rewrite Hm in Ha. cbn [length]. lia.
  - rewrite v_disc0. f_equal. pose proof (lost_upd (e, PWrite idx (filter (fun j => negb (j =? k)) todo)) _ ps i Hi) as L.
    unfold lost in L. cbn [fst snd] in L. lia.
Qed.

Lemma inv_discard g ps ord i e :
  inv (g, ps) ord -> nth_error ps i = Some (e, PDiscard) ->
  inv (Shared (s_cur g) (s_hist g) ((s_disc g + slot_size e) mod 2 ^ 32) (s_data g),
       upd i (e, PErr OutOfResources) ps) ord.
Proof.
  intros V Hi. pose proof (v_w _ _ V _ _ _ Hi) as W. cbn [wstate fst] in W.
  destruct V. cbn [fst snd] in *. split; cbn [fst snd s_cur s_hist s_disc s_data]; auto.
  - rewrite <- v_es0. eapply upd_map_fst; eauto.
  - intros j. rewrite v_ord0. destruct (Nat.eq_dec i j) as [<-|E].
    + erewrite upd_same by eauto. split; intros (e1 & p1 & H1 & H2).
      * rewrite Hi in H1. injection H1 as <- <-. discriminate.
      * injection H1 as <- <-. discriminate.
    + rewrite upd_other by auto. reflexivity.
  - intros j e1 p1 Hj. destruct (Nat.eq_dec i j) as [<-|E].
    + erewrite upd_same in Hj by eauto. injection Hj as <- <-. cbn [wstate]. auto.
    + rewrite upd_other in Hj by auto. specialize (v_w0 _ _ _ Hj). destruct p1; cbn [wstate s_cur] in *; auto.
  - intros j e1 p1 Hj Hr. destruct (Nat.eq_dec i j) as [<-|E].
    + erewrite upd_same in Hj by eauto. injection Hj as <- <-. discriminate.
    + rewrite upd_other in Hj by auto. eauto.
  - rewrite v_disc0. rewrite N.add_mod_idemp_l by lia. f_equal.
    pose proof (lost_upd (e, PErr OutOfResources) _ ps i Hi) as L. unfold lost in L. cbn [fst snd] in L. lia.
Qed.

(** Every step keeps the invariant; the order only grows at its end. *)
Lemma inv_step s s' ord : inv s ord -> step c s s' -> exists r, inv s' (ord ++ r).
Proof.
  intros V H. destruct H as [g ps i e p ch g' p' Hi Hn].
  destruct (es_nth _ _ _ _ _ V Hi) as (Hm & Hlt & He).
  assert (Ms : message_size (c_dbg c) e = Some (slot_size e)) by (apply message_size_ok; apply He).
  pose proof (v_w _ _ V _ _ _ Hi) as W. cbn [fst] in W.
  assert (Same : inv (g', upd i (e, p') ps) ord -> exists r, inv (g', upd i (e, p') ps) (ord ++ r)).
  { intros K. exists []. now rewrite app_nil_r. }
  destruct p, ch; cbn [pnext] in Hn; try discriminate; try (now destruct todo);
    rewrite ?Ms, ?cfg_full_ok in Hn.
  - destruct (seen v g) eqn:Sv; [|discriminate]. injection Hn as <- <-. apply Same.
    eapply inv_local; eauto. cbn [wstate]. eapply seen_bound; eauto.
  - cbn [wstate] in W. rewrite (add_cur g ps ord cur e V W He : add32 (c_dbg c) _ _ = _) in Hn.
    destruct (cur + slot_size e <=? off + size) eqn:F.
    + destruct (s_cur g =? cur) eqn:E; [|discriminate]. apply N.eqb_eq in E. subst cur.
      injection Hn as <- <-. destruct (inv_reserve g ps ord i e V Hi) as (idx & _ & Ha & K); [lia|].
      rewrite Ha. exists [i]. exact K.
    + injection Hn as <- <-. apply Same. eapply inv_local; eauto. cbn [wstate]. lia.
  - cbn [wstate] in W. rewrite (add_cur g ps ord cur e V W He : add32 (c_dbg c) _ _ = _) in Hn.
    destruct ((cur + slot_size e <=? off + size) && seen v g && negb (v =? cur)) eqn:F; [|discriminate].
    apply andb_true_iff in F. destruct F as [F _]. apply andb_true_iff in F. destruct F as [_ F].
    injection Hn as <- <-. apply Same. eapply inv_local; eauto. cbn [wstate]. eapply seen_bound; eauto.
  - injection Hn as <- <-. apply Same. apply inv_discard; auto.
  - rewrite (stored_image e) in Hn by apply He.
    destruct todo as [|t0 todo]; [discriminate|].
    destruct (existsb (N.eqb k) (t0 :: todo)) eqn:Ek; [|discriminate].
    injection Hn as <- <-. apply Same. apply existsb_exists in Ek. destruct Ek as (x & Hx & Ex).
    apply N.eqb_eq in Ex. subst x. exact (inv_byte g ps ord i e idx (t0 :: todo) k V Hi Hx).
  - destruct todo; [|discriminate]. injection Hn as <- <-. apply Same. eapply inv_local; eauto. exact I.
Qed.

Lemma inv_reach s s' ord : inv s ord -> reach c s s' -> exists r, inv s' (ord ++ r).
Proof.
  intros V H. induction H as [|s s1 s2 H IH Hs].
  - exists []. now rewrite app_nil_r.
  - destruct (IH V) as (r & V'). destruct (inv_step _ _ _ V' Hs) as (r' & V2).
    exists (r ++ r'). now rewrite app_assoc.
Qed.

End Inv.

Lemma inv_start off size old es cur disc data :
  cur = off + total_size old -> cur <= off + size -> disc < 2 ^ 32 ->
  inv off size old es disc data (start (Shared cur [cur] disc data) es) [].
Proof.
  intros Hc Hs Hd. unfold start. split; cbn [fst snd s_cur s_hist s_disc s_data]; auto.
  - rewrite map_map. cbn. apply map_id.
  - constructor.
  - intros i. split; [intros []|]. intros (e & p & H & Hr).
    apply nth_error_In in H. apply in_map_iff in H. destruct H as (x & Hx & _). injection Hx as <- <-. discriminate.
  - cbn. lia.
  - constructor; [lia|constructor].
  - left. auto.
  - intros i e p H. apply nth_error_In in H. apply in_map_iff in H. destruct H as (x & Hx & _).
    injection Hx as <- <-. exact I.
  - intros i e p H Hr. apply nth_error_In in H. apply in_map_iff in H. destruct H as (x & Hx & _).
    injection Hx as <- <-. discriminate.
  - assert (L : lost_sum (map (fun e => (e, PStart)) es) = 0).
    { clear. induction es; cbn; auto. }
    rewrite L, N.add_0_r. symmetry. apply N.mod_small. auto.
Qed.
