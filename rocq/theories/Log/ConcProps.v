(** * Concurrent appends (C27) *)

From Verif Require Import Base.Prelude Base.Bytes Align.Model Log.Spec Log.Model Log.Proofs Log.Conc Log.ConcProofs Log.Props.
From Coq Require Import Permutation.
Open Scope N_scope.

(** A log ready to be appended to that holds [old], writers of the messages
    [es] about to start, and a state [s] they can get to. *)
Definition running (dbg : bool) (l : log) (old es : list entry) (c : cfg) (g : shared) (s : system) : Prop :=
  log_ok l /\ Forall entry_ok old /\ log_holds l old /\ i_disc (l_info l) < 2 ^ 32 /\ Forall entry_ok es
  /\ of_log dbg l = (c, g) /\ reach c (start g es) s.

(** What writer [i] is doing. *)
Definition at_state (s : system) (i : nat) (p : pstate) : Prop :=
  exists e, nth_error (snd s) i = Some (e, p).
Definition has_slot (s : system) (i : nat) : Prop :=
  at_state s i POk \/ exists idx todo, at_state s i (PWrite idx todo).
Definition finished (s : system) : Prop :=
  forall i p, at_state s i p -> p = POk \/ exists e, p = PErr e.

Lemma running_inv dbg l old es c g s : running dbg l old es c g s ->
  c = Cfg dbg (i_off (l_info l)) (i_size (l_info l)) (i_size (l_info l)) true /\
  i_off (l_info l) + i_size (l_info l) + 2 ^ 17 < 2 ^ 32 /\
  exists ord, inv (i_off (l_info l)) (i_size (l_info l)) old es (i_disc (l_info l)) (l_data l) s ord.
Proof.
  intros (Hl & Ho & Hh & Hd & Hes & Hof & Hr). destruct Hl as (K1 & K2 & K3 & K4).
  unfold of_log in Hof. injection Hof as Ec Eg. rewrite K3, K4 in Ec. subst c g.
  split; [reflexivity|]. split; [auto|].
  destruct (inv_reach dbg _ _ old es (i_disc (l_info l)) (l_data l) Hes K1 _ _ []
    (inv_start _ (i_size (l_info l)) old es _ (i_disc (l_info l)) (l_data l) (proj1 Hh) K2 Hd) Hr) as (r & V).
  exists r. exact V.
Qed.

Lemma has_slot_reserved s i : has_slot s i <-> exists e p, nth_error (snd s) i = Some (e, p) /\ reserved p = true.
Proof.
  split.
  - intros [(e & H)|(idx & todo & e & H)]; do 2 eexists; split; eauto.
  - intros (e & p & H & Hr). destruct p; try discriminate; [right|left]; unfold at_state; eauto.
Qed.

Lemma total_size_aligned es : total_size es mod 8 = 0.
Proof. induction es as [|e es IH]; [reflexivity|]. cbn [total_size]. pose proof (slot_size_bounds e). lia. Qed.

(** In every state the writers can reach, the ones that have reserved space
    own disjoint, 8-byte aligned slots behind the old messages and inside the
    buffer; a byte a writer has stored stays as it was stored; and bytes
    outside the slots are as they were.  No writer panics. *)
Theorem c27_slots dbg l old es c g s : running dbg l old es c g s ->
  (forall i, ~ at_state s i PPanic) /\
  exists slot : nat -> N,
    (forall i, has_slot s i ->
       slot i mod 8 = 0 /\ total_size old <= slot i /\ slot i + slot_size (nth i es dummy) <= i_size (l_info l)) /\
    (forall i j, has_slot s i -> has_slot s j -> i <> j ->
       slot i + slot_size (nth i es dummy) <= slot j \/ slot j + slot_size (nth j es dummy) <= slot i) /\
    (forall i idx todo, at_state s i (PWrite idx todo) -> idx = slot i /\ forall k, In k todo -> k < slot_size (nth i es dummy)) /\
    (forall i idx todo k, at_state s i (PWrite idx todo) -> k < slot_size (nth i es dummy) -> ~ In k todo ->
       s_data (fst s) (slot i + k) = nth (N.to_nat k) (slot_image (nth i es dummy)) 0) /\
    (forall i k, at_state s i POk -> k < slot_size (nth i es dummy) ->
       s_data (fst s) (slot i + k) = nth (N.to_nat k) (slot_image (nth i es dummy)) 0) /\
    (forall a, (forall i, has_slot s i -> a < slot i \/ slot i + slot_size (nth i es dummy) <= a) ->
       s_data (fst s) a = l_data l a).
Proof.
  intros R. pose proof (total_size_aligned old) as H8. destruct (running_inv _ _ _ _ _ _ _ R) as (Ec & Hsz & ord & V).
  pose proof R as (_ & _ & _ & _ & Hes & _ & _).
  assert (En : forall i e p, nth_error (snd s) i = Some (e, p) -> nth i es dummy = e).
  { intros i e p H. destruct s as [g1 ps]. eapply es_nth in H; eauto. apply H. }
  split.
  { intros i (e & H). apply (v_w _ _ _ _ _ _ _ _ V) in H. exact H. }
  exists (slot_of es (total_size old) ord).
  assert (Hin : forall i, has_slot s i <-> In i ord).
  { intros i. rewrite has_slot_reserved. symmetry. apply (v_ord _ _ _ _ _ _ _ _ V). }
  repeat (apply conj).
  - intros i Hi. apply Hin in Hi. split; [apply slot_of_aligned; auto|].
    destruct (slot_of_bounds es i ord (total_size old) Hi) as [B1 B2]. split; auto.
    pose proof (v_cur _ _ _ _ _ _ _ _ V). pose proof (v_fit _ _ _ _ _ _ _ _ V). unfold msg in B2. lia.
  - intros i j Hi Hj E. apply slot_of_disjoint; auto; apply Hin; auto.
  - intros i idx todo (e & H). rewrite (En _ _ _ H). pose proof (v_w _ _ _ _ _ _ _ _ V _ _ _ H) as W. exact W.
  - intros i idx todo k (e & H) Hk Hn. rewrite (En _ _ _ H) in *. eapply (v_bytes _ _ _ _ _ _ _ _ V); eauto.
  - intros i k (e & H) Hk. rewrite (En _ _ _ H) in *. eapply (v_bytes _ _ _ _ _ _ _ _ V); eauto.
  - intros a Ha. apply (v_rest _ _ _ _ _ _ _ _ V). intros i Hi. apply Ha. apply Hin. auto.
Qed.

Lemma lost_rejected es : forall ps, map fst ps = es -> (forall i p, at_state (Shared 0 [] 0 (fun _ => 0), ps) i p -> p = POk \/ exists e, p = PErr e) ->
  lost_sum ps = total_size (map fst (filter (fun x => negb (reserved (snd x))) ps)).
Proof.
  intros ps _ H.
  assert (F : Forall (fun x => snd x = POk \/ exists e, snd x = PErr e) ps).
  { apply Forall_forall. intros [e p] Hx. apply In_nth_error in Hx. destruct Hx as (i & Hi).
    apply (H i p). exists e. exact Hi. }
  clear H. induction F as [|[e p] ps Hx F IH]; [reflexivity|]. cbn [lost_sum filter snd fst].
  destruct Hx as [E|(x & E)]; cbn [snd] in E; subst p; unfold lost; cbn [snd fst reserved negb map total_size]; lia.
Qed.

Lemma filter_nth_perm (ps : list (entry * pstate)) (f : entry * pstate -> bool) ord es :
  NoDup ord -> map fst ps = es ->
  (forall i, In i ord <-> exists x, nth_error ps i = Some x /\ f x = true) ->
  Permutation (msgs es ord) (map fst (filter f ps)).
Proof.
  intros Hnd He Hord.
  set (idxs := filter (fun i => match nth_error ps i with Some x => f x | None => false end) (seq 0 (length ps))).
  assert (P : Permutation ord idxs).
  { apply NoDup_Permutation; auto; [apply NoDup_filter, seq_NoDup|].
    intros i. rewrite Hord. unfold idxs. rewrite filter_In, in_seq. split.
    - intros (x & Hx & Hf). rewrite Hx. split; auto.
      assert (i < length ps)%nat by (apply nth_error_Some; congruence). lia.
    - intros (_ & H). destruct (nth_error ps i) as [x|]; [|discriminate]. eauto. }
  assert (E : map fst (filter f ps) = msgs es idxs).
  { unfold idxs, msgs, msg. rewrite <- He. clear. 
    assert (G : forall pre, map fst (filter f ps) = map (fun i => nth i (map fst (pre ++ ps)) dummy)
      (filter (fun i => match nth_error (pre ++ ps) i with Some x => f x | None => false end) (seq (length pre) (length ps)))).
    { induction ps as [|x ps IH]; intros pre; [reflexivity|]. cbn [length seq filter].
      rewrite nth_error_app2, Nat.sub_diag by lia. cbn [nth_error].
      specialize (IH (pre ++ [x])). rewrite <- app_assoc, app_length in IH. cbn [length app] in IH.
      replace (length pre + 1)%nat with (S (length pre)) in IH by lia.
      destruct (f x); cbn [map]; [|exact IH]. f_equal; [|exact IH].
      rewrite map_app. rewrite app_nth2 by (rewrite map_length; lia). rewrite map_length, Nat.sub_diag. reflexivity. }
    apply (G []). }
  rewrite E. apply Permutation_map. exact P.
Qed.

Lemma NoDup_app_l {A} (a b : list A) : NoDup (a ++ b) -> NoDup a.
Proof.
  induction a as [|x a IH]; intros H; [constructor|]. inversion H; subst. constructor; auto.
  intros K. apply H2. apply in_or_app. auto.
Qed.

(** Iterating when the writers in [done], the first in reservation order,
    have finished. *)
Lemma inv_iter dbg l old es s done rest :
  log_ok l -> Forall entry_ok old -> log_holds l old -> Forall entry_ok es ->
  inv (i_off (l_info l)) (i_size (l_info l)) old es (i_disc (l_info l)) (l_data l) s (done ++ rest) ->
  (forall i, In i done -> at_state s i POk) ->
  let c := Cfg dbg (i_off (l_info l)) (i_size (l_info l)) (i_size (l_info l)) true in
  exists junk, iter (as_log c (fst s)) = Some (old ++ map (fun i => nth i es dummy) done ++ junk)
               /\ (rest = [] -> junk = []).
Proof.
  intros Hl Ho Hh Hes V Hdone c.
  assert (Hlt : forall i, In i (done ++ rest) -> (i < length es)%nat).
  { intros i Hi. apply (v_ord _ _ _ _ _ _ _ _ V) in Hi. destruct Hi as (e & p & H & _). destruct s as [g1 ps].
    eapply es_nth in H; eauto. apply H. }
  assert (Hok : Forall entry_ok (old ++ msgs es done)).
  { apply Forall_app. split; auto. apply msgs_ok; auto. intros i Hi. apply Hlt. apply in_or_app. auto. }
  pose proof (v_nodup _ _ _ _ _ _ _ _ V) as Hnd. pose proof (v_cur _ _ _ _ _ _ _ _ V) as Hc.
  pose proof (v_fit _ _ _ _ _ _ _ _ V) as Hfit. unfold msgs in Hc. rewrite map_app, total_size_app in Hc.
  assert (B : bytes_at (s_data (fst s)) 0 (log_image (old ++ msgs es done))).
  { rewrite log_image_app. apply bytes_at_app. split.
    - intros k Hk. rewrite (v_rest _ _ _ _ _ _ _ _ V); [apply (proj2 Hh k Hk)|].
      intros i Hi. left. rewrite log_image_length in Hk by auto.
      pose proof (slot_of_bounds es i _ (total_size old) Hi). lia.
    - rewrite log_image_length by auto. cbn [N.add]. apply slots_bytes; auto.
      + intros i Hi. apply Hlt. apply in_or_app. auto.
      + apply NoDup_app_l in Hnd. exact Hnd.
      + intros i Hi k Hk. destruct (Hdone i Hi) as (e & H).
        assert (E : msg es i = e /\ (i < length es)%nat /\ entry_ok e) by (destruct s as [g1 ps]; eapply es_nth; eauto).
        destruct E as (E & _ & Eok). rewrite E in *. rewrite slot_image_length in Hk by apply Eok.
        rewrite <- (slot_of_app es rest i done (total_size old) Hi).
        eapply (v_bytes _ _ _ _ _ _ _ _ V); eauto. }
  set (lg := as_log c (fst s)).
  assert (P : iter_collect (S (N.to_nat (i_cur (l_info lg)))) lg (i_off (l_info lg))
    = option_map (app (old ++ msgs es done))
        (iter_collect (S (N.to_nat (i_cur (l_info lg))) - length (old ++ msgs es done)) lg
                      (i_off (l_info lg) + total_size (old ++ msgs es done)))).
  { apply iter_collect_prefix; auto.
    - unfold lg, c. cbn [as_log l_info i_cur i_off c_off]. rewrite total_size_app. unfold msgs. lia.
    - unfold lg, c. cbn [as_log l_len c_len]. rewrite total_size_app. unfold msgs. lia.
    - rewrite N.sub_diag. exact B.
    - lia.
    - pose proof (total_size_ge (old ++ msgs es done)) as G. rewrite total_size_app in G. unfold lg. cbn [as_log l_info i_cur].
      unfold msgs in *. lia. }
  destruct (iter_collect_total lg (S (N.to_nat (i_cur (l_info lg))) - length (old ++ msgs es done))
                      (i_off (l_info lg) + total_size (old ++ msgs es done))) as (junk & J).
  { pose proof (total_size_ge (old ++ msgs es done)) as G. rewrite total_size_app in *. unfold lg. cbn [as_log l_info i_cur i_off].
    unfold msgs in *. lia. }
  exists junk. unfold iter. fold lg. rewrite P, J. cbn [option_map]. rewrite <- app_assoc. split; [reflexivity|].
  intros ->. cbn [map total_size] in Hc.
  assert (Z : iter_next lg (i_off (l_info lg) + total_size (old ++ msgs es done)) = None).
  { unfold iter_next, lg, ENTRY_SIZE, c. cbn [as_log l_info i_cur i_off c_off].
    rewrite total_size_app. unfold msgs.
    match goal with |- (if ?b then _ else _) = _ => replace b with true by lia end. reflexivity. }
  destruct (S (N.to_nat (i_cur (l_info lg))) - length (old ++ msgs es done))%nat as [|f]; [discriminate J|].
  cbn [iter_collect] in J. rewrite Z in J. injection J as <-. reflexivity.
Qed.

(** When every writer has finished, iterating the log returns the old
    messages followed by the messages of exactly the writers that reported
    success, each once; every other writer reported OUT_OF_RESOURCES, its
    message did not fit in what is left, and its size has been counted as
    discarded. *)
Theorem c27_finished dbg l old es c g s : running dbg l old es c g s -> finished s ->
  exists ord,
    NoDup ord /\ (forall i, In i ord <-> at_state s i POk) /\
    iter (as_log c (fst s)) = Some (old ++ map (fun i => nth i es dummy) ord) /\
    Permutation es (map (fun i => nth i es dummy) ord ++ map fst (filter (fun x => negb (reserved (snd x))) (snd s))) /\
    (forall i e, nth_error (snd s) i = Some (e, PErr OutOfResources) ->
       i_off (l_info l) + i_size (l_info l) < s_cur (fst s) + slot_size e) /\
    (forall i x, at_state s i (PErr x) -> x = OutOfResources) /\
    s_disc (fst s) = (i_disc (l_info l) +
      total_size (map fst (filter (fun x => negb (reserved (snd x))) (snd s)))) mod 2 ^ 32.
Proof.
  intros R F. destruct (running_inv _ _ _ _ _ _ _ R) as (Ec & Hsz & ord & V).
  pose proof R as (Hl & Ho & Hh & _ & Hes & _ & _). exists ord.
  assert (Hin : forall i, In i ord <-> at_state s i POk).
  { intros i. rewrite (v_ord _ _ _ _ _ _ _ _ V). split.
    - intros (e & p & H & Hr). destruct (F i p) as [->|(x & ->)]; [exists e; auto|exists e; auto|discriminate].
    - intros (e & H). exists e, POk. auto. }
  assert (Hlt : forall i, In i ord -> (i < length es)%nat).
  { intros i Hi. apply Hin in Hi. destruct Hi as (e & H). destruct s as [g1 ps]. eapply es_nth in H; eauto. apply H. }
  split; [apply (v_nodup _ _ _ _ _ _ _ _ V)|]. split; [exact Hin|]. split.
  - rewrite <- (app_nil_r ord) in V. destruct (inv_iter dbg l old es s ord [] Hl Ho Hh Hes V) as (junk & J & Jn).
    { intros i Hi. apply Hin. auto. }
    rewrite (Jn eq_refl), app_nil_r in J. rewrite Ec. exact J.
  - assert (P : Permutation (map (fun i => nth i es dummy) ord) (map fst (filter (fun x => reserved (snd x)) (snd s)))).
    { apply filter_nth_perm; [apply (v_nodup _ _ _ _ _ _ _ _ V)|apply (v_es _ _ _ _ _ _ _ _ V)|].
      intros i. rewrite (v_ord _ _ _ _ _ _ _ _ V). split.
      - intros (e & p & H & Hr). exists (e, p). auto.
      - intros ([e p] & H & Hr). exists e, p. auto. }
    split.
    { rewrite P. rewrite <- map_app. rewrite <- (v_es _ _ _ _ _ _ _ _ V) at 1. apply Permutation_map.
      clear. induction (snd s) as [|x t IH]; [constructor|]. cbn [filter]. destruct (reserved (snd x)); cbn [negb].
      - cbn [app]. constructor. exact IH.
      - rewrite <- Permutation_middle. constructor. exact IH. }
    split.
    { intros i e H. pose proof (v_w _ _ _ _ _ _ _ _ V _ _ _ H) as W. cbn in W. apply W. }
    split.
    { intros i x (e & H). pose proof (v_w _ _ _ _ _ _ _ _ V _ _ _ H) as W. apply W. }
    rewrite (v_disc _ _ _ _ _ _ _ _ V). f_equal. f_equal. apply (lost_rejected es (snd s) (v_es _ _ _ _ _ _ _ _ V)).
    intros i p Hp. apply (F i p). exact Hp.
Qed.

(** Reservation order is the order in time: whatever has reserved its space in
    an earlier state comes before whatever has not. *)
Theorem c27_order dbg l old es c g s1 s2 :
  running dbg l old es c g s1 -> reach c s1 s2 -> finished s2 ->
  exists o1 o2,
    (forall i, In i o1 <-> has_slot s1 i) /\ (forall i, In i (o1 ++ o2) <-> at_state s2 i POk) /\ NoDup (o1 ++ o2) /\
    iter (as_log c (fst s2)) =
      Some (old ++ map (fun i => nth i es dummy) o1 ++ map (fun i => nth i es dummy) o2).
Proof.
  intros R Hr F. destruct (running_inv _ _ _ _ _ _ _ R) as (Ec & Hsz & o1 & V1).
  pose proof R as (Hl & Ho & Hh & _ & Hes & _ & _). rewrite Ec in Hr.
  destruct (inv_reach dbg _ _ old es (i_disc (l_info l)) (l_data l) Hes Hsz _ _ _ V1 Hr) as (o2 & V).
  exists o1, o2.
  assert (Hin : forall i, In i (o1 ++ o2) <-> at_state s2 i POk).
  { intros i. rewrite (v_ord _ _ _ _ _ _ _ _ V). split.
    - intros (e & p & H & Hp). destruct (F i p) as [->|(x & ->)]; [exists e; auto|exists e; auto|discriminate].
    - intros (e & H). exists e, POk. auto. }
  split. { intros i. rewrite has_slot_reserved. apply (v_ord _ _ _ _ _ _ _ _ V1). }
  split; [exact Hin|]. split; [apply (v_nodup _ _ _ _ _ _ _ _ V)|].
  rewrite <- (app_nil_r (o1 ++ o2)) in V. destruct (inv_iter dbg l old es s2 (o1 ++ o2) [] Hl Ho Hh Hes V) as (junk & J & Jn).
  { intros i Hi. apply Hin. auto. }
  rewrite (Jn eq_refl), app_nil_r, map_app in J. rewrite Ec. exact J.
Qed.

Lemma accepted_split : forall A room R, total_size A <= room ->
  Forall (fun e => room - total_size A < slot_size e) R ->
  accepted room (A ++ R) = A /\ rejected_size room (A ++ R) = total_size R.
Proof.
  induction A as [|a A IH]; intros room R Ht HR; cbn [app accepted rejected_size total_size] in *.
  - induction HR as [|e R He HR IHR]; [auto|]. cbn [accepted rejected_size total_size].
    replace (slot_size e <=? room) with false by lia. destruct IHR as [-> ->]. auto.
  - replace (slot_size a <=? room) with true by lia.
    destruct (IH (room - slot_size a) R) as [-> ->]; auto; [lia|].
    eapply Forall_impl; [|exact HR]. cbn. intros. lia.
Qed.

(** Concurrent appends are equivalent to appending the messages one after
    the other in some order. *)
Theorem c27_linearizable dbg l old es c g s : running dbg l old es c g s -> finished s ->
  exists es', Permutation es' es /\
    let l' := snd (add_all dbg l es') in
    iter l' = iter (as_log c (fst s)) /\ i_disc (l_info l') = s_disc (fst s) /\ i_cur (l_info l') = s_cur (fst s).
Proof.
  intros R F. destruct (c27_finished _ _ _ _ _ _ _ R F) as (ord & Hnd & Hin & Hit & Hp & Hrej & Herr & Hdisc).
  destruct (running_inv _ _ _ _ _ _ _ R) as (Ec & Hsz & ord' & V).
  pose proof R as (Hl & Ho & Hh & Hd & Hes & _ & _).
  set (A := map (fun i => nth i es dummy) ord) in *.
  set (J := map fst (filter (fun x => negb (reserved (snd x))) (snd s))) in *.
  exists (A ++ J). split; [symmetry; exact Hp|].
  assert (Hcur : s_cur (fst s) = i_off (l_info l) + total_size old + total_size A).
  { assert (Po : Permutation ord' ord).
    { apply NoDup_Permutation; auto; [apply (v_nodup _ _ _ _ _ _ _ _ V)|]. intros i. rewrite Hin.
      rewrite (v_ord _ _ _ _ _ _ _ _ V). split.
      - intros (e & p & H & Hpr). destruct (F i p) as [->|(x & ->)]; [exists e; auto|exists e; auto|discriminate].
      - intros (e & H). exists e, POk. auto. }
    rewrite (v_cur _ _ _ _ _ _ _ _ V). f_equal. unfold A, msgs, msg.
    apply (Permutation_map (fun i => nth i es dummy)) in Po.
    assert (TS : forall x y, Permutation x y -> total_size x = total_size y).
    { intros x y H. induction H; cbn [total_size]; lia. }
    apply TS. exact Po. }
  pose proof (v_fit _ _ _ _ _ _ _ _ V) as Hfit.
  assert (HesP : Forall entry_ok (A ++ J)).
  { eapply Permutation_Forall; [exact Hp|exact Hes]. }
  destruct (accepted_split A (i_size (l_info l) - total_size old) J) as [Acc Rej].
  { lia. }
  { apply Forall_forall. intros e He. unfold J in He. apply in_map_iff in He. destruct He as ([e1 p] & E & He). cbn in E. subst e1.
    apply filter_In in He. destruct He as [He Hr]. apply In_nth_error in He. destruct He as (i & Hi).
    destruct (F i p) as [->|(x & ->)]; [exists e; auto|discriminate|].
    assert (x = OutOfResources) by (apply (Herr i); exists e; auto). subst x.
    specialize (Hrej i e Hi). lia. }
  pose proof (add_all_spec dbg (A ++ J) l old Hl Ho HesP Hh Hd) as S. cbv zeta in S.
  rewrite Acc, Rej in S. pose proof (c28_appends_iterate dbg l old (A ++ J) Hl Ho Hh Hd HesP) as S2. cbv zeta in S2.
  rewrite Acc, Rej in S2. destruct (add_all dbg l (A ++ J)) as [os l']. cbn [snd].
  destruct S as (_ & S3 & [S4 _] & S5 & S6 & S7). destruct S2 as (_ & S8 & _).
  split; [now rewrite S8, Hit|]. split; [now rewrite S7, Hdisc|].
  rewrite S4, S5, Hcur, total_size_app. lia.
Qed.

(** A reader may look while writers are busy: it gets the old messages and
    those of the writers that finished first in reservation order; what
    follows comes from slots still being written. *)
Theorem c27_reader dbg l old es c g s : running dbg l old es c g s ->
  exists done rest junk, NoDup (done ++ rest) /\ (forall i, In i (done ++ rest) <-> has_slot s i) /\
    (forall i, In i done -> at_state s i POk) /\
    (forall i r, rest = i :: r -> exists idx todo, at_state s i (PWrite idx todo)) /\
    iter (as_log c (fst s)) = Some (old ++ map (fun i => nth i es dummy) done ++ junk) /\ (rest = [] -> junk = []).
Proof.
  intros R. destruct (running_inv _ _ _ _ _ _ _ R) as (Ec & Hsz & ord & V).
  pose proof R as (Hl & Ho & Hh & Hd & Hes & _ & _).
  set (ok := fun i => match nth_error (snd s) i with Some (_, POk) => true | _ => false end).
  assert (S : exists done rest, ord = done ++ rest /\ (forall i, In i done -> ok i = true)
                                /\ (forall i r, rest = i :: r -> ok i = false)).
  { clear. induction ord as [|i ord (d & r & E & H1 & H2)].
    - exists [], []. repeat split; [intros i []|discriminate].
    - destruct (ok i) eqn:K.
      + exists (i :: d), r. split; [cbn; now rewrite E|]. split; [intros j [<-|Hj]; auto|auto].
      + exists [], (i :: ord). repeat split; [intros j []|]. intros j r' [= <- <-]. auto. }
  destruct S as (done & rest & E & H1 & H2). subst ord. exists done, rest.
  assert (K1 : forall i, In i done -> at_state s i POk).
  { intros i Hi. specialize (H1 i Hi). unfold ok in H1. destruct (nth_error (snd s) i) as [[e []]|] eqn:X; try discriminate.
    exists e. exact X. }
  assert (K2 : forall i, In i (done ++ rest) <-> has_slot s i).
  { intros i. rewrite has_slot_reserved. apply (v_ord _ _ _ _ _ _ _ _ V). }
  destruct (inv_iter dbg l old es s done rest Hl Ho Hh Hes V K1) as (junk & J1 & J2).
  exists junk. split; [apply (v_nodup _ _ _ _ _ _ _ _ V)|]. split; [exact K2|]. split; [exact K1|]. split.
  - intros i r ->. specialize (H2 i r eq_refl). unfold ok in H2.
    assert (Hs : has_slot s i) by (apply K2; apply in_or_app; right; left; auto).
    destruct Hs as [(e & X)|X]; auto. rewrite X in H2. discriminate.
  - rewrite Ec. split; auto.
Qed.

Lemma reach_trans c a b d : reach c a b -> reach c b d -> reach c a d.
Proof. intros H1 H2. induction H2 as [s|s s1 s2 H2 IH Hs]; [exact H1|]. eapply reach_step; [apply IH; exact H1|exact Hs]. Qed.

Lemma upd_upd {A} (x y : A) : forall l i, upd i y (upd i x l) = upd i y l.
Proof. induction l; destruct i; cbn; intros; f_equal; auto. Qed.

(** Whatever the others are doing, and even if they never run again, a writer
    that is scheduled finishes: it ends with success, or OUT_OF_RESOURCES. *)
Theorem c27_progress dbg l old es c g s i : running dbg l old es c g s -> (i < length es)%nat ->
  exists s', reach c s s' /\ (forall j, j <> i -> nth_error (snd s') j = nth_error (snd s) j) /\
    (at_state s' i POk \/ at_state s' i (PErr OutOfResources)).
Proof.
  intros R Hi.
  assert (G : forall s1, reach c s s1 -> running dbg l old es c g s1).
  { intros s1 Hr. destruct R as (R1 & R2 & R3 & R4 & R5 & R6 & R7). unfold running. split; [exact R1|]. split; [exact R2|]. split; [exact R3|]. split; [exact R4|]. split; [exact R5|]. split; [exact R6|]. eapply reach_trans; eauto. }
  set (goal := fun s0 : system => exists s', reach c s0 s' /\ (forall j, j <> i -> nth_error (snd s') j = nth_error (snd s0) j) /\
    (at_state s' i POk \/ at_state s' i (PErr OutOfResources))).
  assert (Pre : forall s0 s1, step c s0 s1 -> (forall j, j <> i -> nth_error (snd s1) j = nth_error (snd s0) j) -> goal s1 -> goal s0).
  { intros s0 s1 H K (s' & A1 & A2 & A3). exists s'. split.
    - eapply reach_trans; [|exact A1]. econstructor; [apply reach_refl|exact H].
    - split; auto. intros j Hj. rewrite A2, K; auto. }
  assert (St : forall g0 ps e p ch g1 p1, nth_error ps i = Some (e, p) -> pnext c e g0 p ch = Some (g1, p1) ->
     goal (g1, upd i (e, p1) ps) -> goal (g0, ps)).
  { intros g0 ps e p ch g1 p1 H K Q. eapply Pre; [econstructor; eauto| |exact Q].
    intros j Hj. cbn [snd]. apply upd_other. auto. }
  assert (Fin : forall g0 ps e, nth_error ps i = Some (e, POk) -> goal (g0, ps)).
  { intros g0 ps e H. exists (g0, ps). split; [constructor|]. split; auto. left. exists e. exact H. }
  assert (FinE : forall g0 ps e, nth_error ps i = Some (e, PErr OutOfResources) -> goal (g0, ps)).
  { intros g0 ps e H. exists (g0, ps). split; [constructor|]. split; auto. right. exists e. exact H. }
  pose proof R as (_ & _ & _ & _ & Hes & _ & _).
  (* storing the remaining bytes *)
  assert (W : forall n todo g0 ps e idx, (length todo <= n)%nat -> entry_ok e ->
     nth_error ps i = Some (e, PWrite idx todo) -> goal (g0, ps)).
  { induction n as [|n IH]; intros todo g0 ps e idx Hn He H.
    - destruct todo; [|cbn in Hn; lia]. eapply (St _ _ _ _ CGo); [exact H|reflexivity|].
      eapply Fin. eapply upd_same. exact H.
    - destruct todo as [|k todo]; [eapply (IH []); eauto; cbn; lia|].
      eapply (St _ _ _ _ (CByte k)); [exact H| |].
      + cbn [pnext]. rewrite message_size_ok by apply He. cbn [existsb]. rewrite N.eqb_refl. cbn [orb]. reflexivity.
      + eapply IH; [|exact He|eapply upd_same; exact H].
        cbn [filter]. rewrite N.eqb_refl. cbn [negb].
        assert (L : forall (f : N -> bool) t, (length (filter f t) <= length t)%nat).
        { intros f t. induction t as [|y t IHt]; cbn; [lia|]. destruct (f y); cbn; lia. }
        specialize (L (fun j => negb (j =? k)) todo). cbn in Hn. lia. }
  assert (D : forall g0 ps e, entry_ok e -> nth_error ps i = Some (e, PDiscard) -> goal (g0, ps)).
  { intros g0 ps e He H. eapply (St _ _ _ _ CGo); [exact H| |].
    - cbn [pnext]. rewrite message_size_ok by apply He. reflexivity.
    - eapply FinE. eapply upd_same. exact H. }
  assert (L0 : forall g0 ps e, reach c s (g0, ps) -> nth_error ps i = Some (e, PLoop (s_cur g0)) -> goal (g0, ps)).
  { intros g0 ps e Hr H. pose proof (G _ Hr) as R0. destruct (running_inv _ _ _ _ _ _ _ R0) as (Ec & Hsz & ord & V).
    assert (E : msg es i = e /\ (i < length es)%nat /\ entry_ok e) by (eapply es_nth; eauto).
    destruct E as (_ & _ & He). pose proof (v_w _ _ _ _ _ _ _ _ V _ _ _ H) as Wl. cbn [wstate fst] in Wl.
    assert (Ms : message_size (c_dbg c) e = Some (slot_size e)) by (apply message_size_ok; apply He).
    assert (Cf : cfg_full c = Some (i_off (l_info l) + i_size (l_info l))) by (rewrite Ec; apply cfg_full_ok; auto).
    assert (Ad : add32 (c_dbg c) (s_cur g0) (slot_size e) = Some (s_cur g0 + slot_size e)).
    { rewrite Ec. cbn [c_dbg]. eapply add_cur; eauto. }
    destruct (s_cur g0 + slot_size e <=? i_off (l_info l) + i_size (l_info l)) eqn:Fit.
    - destruct (inv_reserve dbg _ _ _ _ _ _ Hes Hsz g0 ps ord i e V H ltac:(lia)) as (idx & _ & Ha & _).
      eapply (St _ _ _ _ CTry); [exact H| |].
      + cbn [pnext]. rewrite Ms, Cf, Ad, Fit, N.eqb_refl. rewrite Ec, Ha. reflexivity.
      + eapply W; [apply Nat.le_refl|exact He|eapply upd_same; exact H].
    - eapply (St _ _ _ _ CTry); [exact H| |].
      + cbn [pnext]. rewrite Ms, Cf, Ad, Fit. reflexivity.
      + eapply D; [exact He|eapply upd_same; exact H]. }
  destruct s as [g0 ps]. destruct (running_inv _ _ _ _ _ _ _ R) as (Ec & Hsz & ord & V).
  assert (X : exists e p, nth_error ps i = Some (e, p)).
  { pose proof (v_es _ _ _ _ _ _ _ _ V) as E. cbn [snd] in E.
    destruct (nth_error ps i) as [[e p]|] eqn:Q; [eauto|]. apply nth_error_None in Q. rewrite <- E, map_length in Hi. lia. }
  destruct X as (e & p & H). assert (E : msg es i = e /\ (i < length es)%nat /\ entry_ok e) by (eapply es_nth; eauto).
  destruct E as (_ & _ & He). pose proof (v_w _ _ _ _ _ _ _ _ V _ _ _ H) as Wl.
  assert (Ms : message_size (c_dbg c) e = Some (slot_size e)) by (apply message_size_ok; apply He).
  assert (Sn : seen (s_cur g0) g0 = true).
  { unfold seen. apply existsb_exists. exists (s_cur g0). split; [apply (v_seen _ _ _ _ _ _ _ _ V)|apply N.eqb_refl]. }
  assert (Go : forall ch, pnext c e g0 p ch = Some (g0, PLoop (s_cur g0)) -> goal (g0, ps)).
  { intros ch K. assert (Stp : step c (g0, ps) (g0, upd i (e, PLoop (s_cur g0)) ps)) by (econstructor; eauto).
    eapply Pre; [exact Stp| |].
    - intros j Hj. cbn [snd]. apply upd_other. auto.
    - eapply L0; [econstructor; [apply reach_refl|exact Stp]|eapply upd_same; exact H]. }
  change (goal (g0, ps)). destruct p.
  - eapply (Go (CLoad (s_cur g0))). cbn [pnext]. rewrite Sn, Ms. reflexivity.
  - destruct (N.eq_dec cur (s_cur g0)) as [->|Ne]; [eapply L0; [apply reach_refl|exact H]|].
    cbn [wstate fst] in Wl.
    assert (Cf : cfg_full c = Some (i_off (l_info l) + i_size (l_info l))) by (rewrite Ec; apply cfg_full_ok; auto).
    assert (Ad : add32 (c_dbg c) cur (slot_size e) = Some (cur + slot_size e)).
    { rewrite Ec. cbn [c_dbg]. eapply add_cur; eauto. }
    destruct (cur + slot_size e <=? i_off (l_info l) + i_size (l_info l)) eqn:Fit.
    + eapply (Go (CFail (s_cur g0))). cbn [pnext]. rewrite Ms, Cf, Ad, Fit, Sn.
      replace (s_cur g0 =? cur) with false by (symmetry; apply N.eqb_neq; auto). reflexivity.
    + eapply (St _ _ _ _ CTry); [exact H| |].
      * cbn [pnext]. rewrite Ms, Cf, Ad, Fit. reflexivity.
      * eapply D; [exact He|eapply upd_same; exact H].
  - eapply D; eauto.
  - eapply W; eauto.
  - eapply Fin; eauto.
  - destruct Wl as [-> _]. eapply FinE; eauto.
  - destruct Wl.
Qed.

(** ** Examples and limits *)

Definition case_log : log := Log (Info SIGNATURE VERSION 80 80 0 72 false 0 0) (fun _ => 170) 72 true.
Definition case_msgs : list entry := [Entry 4 1 7 [72; 105; 10]; Entry 4 2 8 [1; 2; 3; 4; 5; 6; 7; 8; 9]; Entry 4 1 9 [65]].
Definition writes (i : nat) (n : nat) : list (nat * choice) := map (fun k => (i, CByte (N.of_nat k))) (seq 0 n).

(** Writer 1 gets in first although writer 0 loaded the counter before it;
    writer 2 no longer fits. *)
Definition case_schedule : list (nat * choice) :=
  [(0%nat, CLoad 80); (1%nat, CLoad 80); (1%nat, CTry); (0%nat, CFail 120); (2%nat, CLoad 80); (0%nat, CTry);
   (2%nat, CFail 152); (2%nat, CTry); (2%nat, CGo)]
  ++ writes 0 32 ++ rev (writes 1 40) ++ [(0%nat, CGo); (1%nat, CGo)].

Lemma run_reach c : forall sch s s', run c s sch = Some s' -> reach c s s'.
Proof.
  induction sch as [|[i ch] sch IH]; intros [g ps] s' H; cbn [run] in H; [injection H as <-; constructor|].
  cbn [fst snd] in H. destruct (nth_error ps i) as [[e p]|] eqn:E; [|discriminate].
  destruct (pnext c e g p ch) as [[g' p']|] eqn:P; [|discriminate].
  eapply reach_trans; [|eapply IH; exact H]. econstructor; [apply reach_refl|]. econstructor; eauto.
Qed.

Lemma case_entries_ok : Forall entry_ok case_msgs.
Proof. repeat (apply Forall_cons || apply Forall_nil); repeat (apply conj); try (cbn; lia); repeat constructor. Qed.

Example c27_case : exists c g s, running false case_log [] case_msgs c g s /\ finished s /\
  iter (as_log c (fst s)) = Some [Entry 4 2 8 [1; 2; 3; 4; 5; 6; 7; 8; 9]; Entry 4 1 7 [72; 105; 10]] /\
  s_disc (fst s) = 32.
Proof.
  destruct (of_log false case_log) as [c g] eqn:Eof. exists c, g.
  destruct (run c (start g case_msgs) case_schedule) as [s|] eqn:E.
  2:{ injection Eof as <- <-. vm_compute in E. discriminate. }
  exists s. split.
  - unfold running. split; [unfold log_ok; cbn; lia|]. split; [constructor|].
    split; [split; [reflexivity|intros k Hk; cbn in Hk; lia]|]. split; [cbn; lia|].
    split; [apply case_entries_ok|]. split; [exact Eof|]. eapply run_reach; eauto.
  - injection Eof as <- <-. vm_compute in E. injection E as <-. split; [|vm_compute; auto].
    intros i p (e & H). cbn [snd] in H.
    do 3 (destruct i; [cbn in H; injection H as <- <-; eauto|]). destruct i; discriminate.
Qed.

(** A reader that looks while a reserved slot has not been written sees an
    entry no writer wrote. *)
Theorem c27_phantom_refuted : exists l es c g s x, running false l [] es c g s /\
  iter (as_log c (fst s)) = Some [x] /\ ~ In x es.
Proof.
  set (l := Log (Info SIGNATURE VERSION 80 80 0 72 false 0 0) (fun _ => 0) 72 true).
  destruct (of_log false l) as [c g] eqn:Eof.
  destruct (run c (start g [Entry 4 1 7 [72; 105; 10]]) [(0%nat, CLoad 80); (0%nat, CTry)]) as [s|] eqn:E.
  2:{ injection Eof as <- <-. vm_compute in E. discriminate. }
  exists l, [Entry 4 1 7 [72; 105; 10]], c, g, s, (Entry 0 0 0 []). split; [|split].
  - unfold running. split; [unfold log_ok; cbn; lia|]. split; [constructor|].
    split; [split; [reflexivity|intros k Hk; cbn in Hk; lia]|]. split; [cbn; lia|].
    split; [repeat constructor|]. split; [exact Eof|]. eapply run_reach; eauto.
  - injection Eof as <- <-. vm_compute in E. injection E as <-. vm_compute. reflexivity.
  - intros [H|[]]. discriminate.
Qed.

Print Assumptions c27_slots.
Print Assumptions c27_finished.
Print Assumptions c27_order.
Print Assumptions c27_linearizable.
Print Assumptions c27_reader.
Print Assumptions c27_progress.
Print Assumptions c27_phantom_refuted.
