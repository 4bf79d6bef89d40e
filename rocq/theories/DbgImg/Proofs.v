(** Lemmas about the table of loaded images. *)
From Verif Require Import Base.Prelude DbgImg.Model DbgImg.Spec.
From Coq Require Import Lia ZifyBool ZifyNat ZifyN Permutation.
Local Open Scope N_scope.

Lemma upd_same : forall {A} (f : N -> option A) k v, upd f k v k = v.
Proof. intros. unfold upd. rewrite N.eqb_refl. reflexivity. Qed.
Lemma upd_other : forall {A} (f : N -> option A) k v x, x <> k -> upd f k v x = f x.
Proof. intros A f k v x H. unfold upd. apply N.eqb_neq in H. rewrite H. reflexivity. Qed.

Lemma set_nth_app : forall pre x post v, set_nth (length pre) v (pre ++ x :: post) = pre ++ v :: post.
Proof. induction pre as [|y pre IH]; intros; cbn; [reflexivity | f_equal; apply IH]. Qed.
Lemma nth_app_len : forall (pre : list N) x post d, nth (length pre) (pre ++ x :: post) d = x.
Proof. induction pre as [|y pre IH]; intros; cbn; [reflexivity | apply IH]. Qed.

Lemma f2_length : forall {A B} (R : A -> B -> Prop) la lb, Forall2 R la lb -> length la = length lb.
Proof. intros A B R la lb F. induction F; cbn; [reflexivity | f_equal; assumption]. Qed.

(** The state at rest: [ps] the pointers in use, [rest] the unused slots, [l] the entries. *)
Record inv (s : dstate) (l : list info) : Prop := Inv {
  iv_split : exists ps rest, d_arrays s (d_slice s) = Some (ps ++ rest)
    /\ d_size s = N.of_nat (length ps) /\ d_actual s = N.of_nat (length (ps ++ rest))
    /\ Forall2 (fun p i => d_boxes s p = Some i) ps l /\ NoDup ps
    /\ (forall p, In p ps -> 0 < p < d_free s)
    /\ (forall p, d_boxes s p <> None -> In p ps);
  iv_ptr : d_ptr s = d_slice s;
  iv_arrays : forall q, d_arrays s q <> None -> q = d_slice s;
  iv_free : 0 < d_slice s < d_free s }.

Lemma inv_init : inv initialize [].
Proof.
  split; cbn [initialize d_boxes d_arrays d_free d_status d_size d_ptr d_actual d_slice].
  - exists [], (repeat 0 (N.to_nat image_info_table_size)). rewrite upd_same.
    split; [reflexivity|]. split; [reflexivity|]. split; [rewrite app_nil_l, repeat_length; reflexivity|].
    split; [constructor|]. split; [constructor|]. split; [intros p []|]. intros p H. congruence.
  - reflexivity.
  - intros q H. destruct (N.eq_dec q 1) as [E|E]; [exact E|]. rewrite upd_other in H by exact E. congruence.
  - lia.
Qed.

Lemma inv_status : forall s l x, inv s l -> inv (with_status s x) l.
Proof. intros s l x [A B C D]. split; assumption. Qed.

Lemma forall2_map_error : forall {A B} (R : A -> B -> Prop) la lb, Forall2 R la lb ->
  forall k b, nth_error lb k = Some b -> exists a, nth_error la k = Some a /\ R a b.
Proof.
  intros A B R la lb F. induction F as [|x y la lb H F IH]; intros k b E; [destruct k; discriminate|].
  destruct k as [|k]; cbn in *; [injection E as <-; exists x; split; [reflexivity | exact H] | apply IH; exact E].
Qed.

Lemma inv_shows : forall s l, inv s l -> shows s l /\ nothing_else s.
Proof.
  intros s l [(ps & rest & E & ES & EA & F & ND & R & B) EP AR FR]. pose proof (f2_length _ _ _ F) as L. split.
  - exists (ps ++ rest). rewrite EP. split; [exact E|]. split; [rewrite <- L; exact ES|]. split; [rewrite app_length; lia|].
    intros k i NE. destruct (forall2_map_error _ _ _ F k i NE) as [p [NP X]]. exists p. split; [|split; [|exact X]].
    + rewrite nth_error_app1; [exact NP | apply nth_error_Some; congruence].
    + apply nth_error_In in NP. apply R in NP. lia.
  - split; [intros q H; rewrite EP; apply AR; exact H|].
    intros p H. apply B in H. apply In_nth_error in H. destruct H as [k H]. exists (ps ++ rest), k. rewrite EP.
    assert (LK : (k < length ps)%nat) by (apply nth_error_Some; congruence).
    split; [exact E|]. split; [rewrite nth_error_app1; assumption | lia].
Qed.

Lemma forall2_frame : forall (f : N -> option info) q v ps l, ~ In q ps ->
  Forall2 (fun p i => f p = Some i) ps l -> Forall2 (fun p i => upd f q v p = Some i) ps l.
Proof.
  intros f q v ps l NI F. induction F as [|x y ps l H F IH]; constructor.
  - rewrite upd_other; [exact H|]. intros ->. apply NI. left. reflexivity.
  - apply IH. intros I. apply NI. right. exact I.
Qed.

(** ** Growing *)

(** After [grow] there is room for one more entry, and nothing is lost. *)
Lemma grow_ok : forall dbg s l, inv s l -> N.of_nat (length l) + 129 < two32 ->
  exists g, grow dbg s = Ok g /\ inv (last g s) l /\ d_size (last g s) < d_actual (last g s)
    /\ d_status (last g s) = d_status s /\ d_boxes (last g s) = d_boxes s
    /\ forall x, In x g -> d_status x = d_status s.
Proof.
  intros dbg s l I LT. pose proof I as [(ps & rest & E & ES & EA & F & ND & R & B) EP AR FR].
  pose proof (f2_length _ _ _ F) as L. unfold grow.
  destruct (d_actual s <=? d_size s) eqn:G.
  - assert (RN : rest = []). { destruct rest; [reflexivity|]. rewrite app_length in EA. cbn [length] in EA. lia. }
    subst rest. rewrite app_nil_r in E, EA. unfold add32, image_info_table_size.
    assert (T : (d_size s + 128 <? two32) = true) by lia. rewrite T. cbn [bind]. rewrite E.
    assert (T2 : (N.of_nat (length ps) <? d_size s) = false) by lia. rewrite T2.
    eexists. split; [reflexivity|]. cbn [last].
    set (k := N.to_nat ((d_size s + 128 + two32 - d_size s) mod two32)).
    assert (K : k = 128%nat).
    { unfold k. replace (d_size s + 128 + two32 - d_size s) with (128 + 1 * two32) by lia. rewrite N.mod_add by (vm_compute; discriminate). reflexivity. }
    assert (FI : firstn (N.to_nat (d_size s)) ps = ps) by (apply firstn_all2; lia).
    rewrite FI, K.
    unfold with_ptr, with_actual; cbn [d_boxes d_arrays d_free d_status d_size d_ptr d_actual d_slice].
    split; [|split; [lia | split; [reflexivity | split; [reflexivity|]]]].
    + split; cbn [d_boxes d_arrays d_free d_status d_size d_ptr d_actual d_slice].
      * exists ps, (repeat 0 128). rewrite upd_same. split; [reflexivity|]. split; [exact ES|].
        split; [rewrite app_length, repeat_length; lia|]. split; [exact F|]. split; [exact ND|].
        split; [intros p H; apply R in H; lia | exact B].
      * reflexivity.
      * intros q H. destruct (N.eq_dec q (d_free s)) as [Q|Q]; [exact Q|]. exfalso. apply H. rewrite upd_other by exact Q.
        destruct (N.eq_dec q (d_slice s)) as [Q2|Q2]; [subst q; apply upd_same|]. rewrite upd_other by exact Q2.
        destruct (d_arrays s q) eqn:D; [|reflexivity]. exfalso. apply Q2. apply AR. congruence.
      * lia.
    + intros x [<-|[<-|[<-|[]]]]; reflexivity.
  - exists []. split; [reflexivity|]. cbn [last]. split; [exact I|]. split; [lia|]. split; [reflexivity|]. split; [reflexivity|]. intros x [].
Qed.

Lemma bits_begin : forall s, in_progress (begin_update s) = true /\ modified (begin_update s) = modified s.
Proof.
  intros. unfold in_progress, modified, begin_update, with_status. cbn [d_status]. rewrite !N.lor_spec. split.
  - rewrite Bool.orb_comm. reflexivity.
  - change (N.testbit 1 1) with false. apply Bool.orb_false_r.
Qed.
Lemma bits_end : forall s, in_progress (end_update s) = false /\ modified (end_update s) = true.
Proof.
  intros. unfold in_progress, modified, end_update, with_status. cbn [d_status]. rewrite !N.lor_spec, !N.ldiff_spec. split.
  - change (N.testbit 1 0) with true. change (N.testbit 2 0) with false. rewrite Bool.andb_false_r. reflexivity.
  - change (N.testbit 2 1) with true. apply Bool.orb_true_r.
Qed.

(** ** The two operations *)

Definition shielded (s : dstate) (g : list dstate) : Prop :=
  forall x, In x g -> (in_progress x = true /\ modified x = modified s) \/ x = last g s.

Lemma new_entry_ok : forall dbg s l ty loaded handle, inv s l -> N.of_nat (length l) + 129 < two32 ->
  exists g, new_entry dbg s ty loaded handle = Ok g /\ inv (last g s) (l ++ [Info ty loaded handle])
    /\ in_progress (last g s) = false /\ modified (last g s) = true /\ shielded s g.
Proof.
  intros dbg s l ty loaded handle I LT. unfold new_entry.
  destruct (grow_ok dbg (begin_update s) l) as (g & G & I2 & SZ & ST & BX & GS); [apply inv_status; exact I | exact LT |].
  rewrite G. cbn [bind]. set (s2 := last g (begin_update s)) in *.
  destruct I2 as [(ps & rest & E & ES & EA & F & ND & R & B) EP AR FR]. pose proof (f2_length _ _ _ F) as L.
  rewrite E. destruct rest as [|r rest]; [rewrite app_nil_r in EA; lia|].
  assert (T : (N.of_nat (length (ps ++ r :: rest)) <=? d_size s2) = false) by lia. rewrite T.
  unfold with_slot; cbn [d_boxes d_arrays d_free d_status d_size d_ptr d_actual d_slice].
  unfold add32. assert (T2 : (d_size s2 + 1 <? two32) = true) by lia. rewrite T2. cbn [bind].
  eexists. split; [reflexivity|].
  match goal with |- context [last ?X s] =>
    assert (LL : last X s = end_update (with_size (with_slot (DS (upd (d_boxes s2) (d_free s2) (Some (Info ty loaded handle))) (d_arrays s2) (d_free s2 + 1) (d_status s2) (d_size s2) (d_ptr s2) (d_actual s2) (d_slice s2)) (set_nth (N.to_nat (d_size s2)) (d_free s2) (ps ++ r :: rest))) (d_size s2 + 1)))
  end.
  { match goal with |- last (?z :: g ++ [?a; ?b; ?c; ?q]) s = _ =>
      change (z :: g ++ [a; b; c; q]) with ((z :: g) ++ [a; b; c] ++ [q]) end. rewrite app_assoc. apply last_last. }
  split; [|split; [|split]].
  - rewrite LL. apply inv_status.
    assert (SN : set_nth (N.to_nat (d_size s2)) (d_free s2) (ps ++ r :: rest) = ps ++ d_free s2 :: rest).
    { replace (N.to_nat (d_size s2)) with (length ps) by lia. apply set_nth_app. }
    rewrite SN. assert (NI : ~ In (d_free s2) ps) by (intros X; apply R in X; lia).
    unfold with_size, with_slot; split; cbn [d_boxes d_arrays d_free d_status d_size d_ptr d_actual d_slice].
    + exists (ps ++ [d_free s2]), rest. rewrite upd_same, <- app_assoc. split; [reflexivity|].
      split; [rewrite app_length; cbn [length]; lia|]. split; [rewrite EA, !app_length; cbn [length]; lia|].
      split; [apply Forall2_app; [apply forall2_frame; assumption | constructor; [apply upd_same | constructor]]|].
      split; [apply (Permutation_NoDup (l := d_free s2 :: ps)); [apply Permutation_cons_append | constructor; assumption]|].
      split.
      * intros p X. apply in_app_or in X. destruct X as [X|[<-|[]]]; [apply R in X; lia | lia].
      * intros p X. destruct (N.eq_dec p (d_free s2)) as [->|Q]; [apply in_or_app; right; left; reflexivity|].
        rewrite upd_other in X by exact Q. apply in_or_app. left. apply B. exact X.
    + exact EP.
    + intros q X. destruct (N.eq_dec q (d_slice s2)) as [Q|Q]; [exact Q|]. rewrite upd_other in X by exact Q. apply AR. exact X.
    + lia.
  - rewrite LL. apply bits_end.
  - rewrite LL. apply bits_end.
  - intros x X. rewrite LL.
    pose proof (bits_begin s) as [PB MB].
    assert (SAME : forall y, d_status y = d_status (begin_update s) -> in_progress y = true /\ modified y = modified s).
    { intros y Y. unfold in_progress, modified in *. rewrite Y. split; assumption. }
    destruct X as [<-|X]; [left; split; assumption|]. apply in_app_or in X. destruct X as [X|X]; [left; apply SAME, GS; exact X|].
    cbn [In] in X. destruct X as [<-|[<-|[<-|[<-|[]]]]]; [left; apply SAME; exact ST | left; apply SAME; exact ST | left; apply SAME; exact ST | right; reflexivity].
Qed.

Lemma search_ok : forall boxes handle ps l i0, Forall2 (fun p i => boxes p = Some i) ps l ->
  (search boxes handle i0 ps = Ok None /\ forall i, In i l -> d_handle i <> handle)
  \/ exists pre p post l1 i l2, search boxes handle i0 ps = Ok (Some (i0 + length pre, p)%nat) /\ ps = pre ++ p :: post /\ l = l1 ++ i :: l2
     /\ length pre = length l1 /\ d_handle i = handle.
Proof.
  intros boxes handle ps l i0 F. revert i0. induction F as [|p i ps l H F IH]; intros i0.
  - left. split; [reflexivity | intros i []].
  - cbn [search]. rewrite H. destruct (d_handle i =? handle) eqn:E.
    + right. exists [], p, ps, [], i, l. cbn. rewrite Nat.add_0_r. apply N.eqb_eq in E. repeat split; assumption.
    + destruct (IH (S i0)) as [[R N0]|(pre & q & post & l1 & j & l2 & R & EP & EL & LL & HH)].
      * left. split; [exact R|]. intros k [<-|K]; [apply N.eqb_neq; exact E | apply N0; exact K].
      * right. exists (p :: pre), q, post, (i :: l1), j, l2. rewrite R, EP, EL. cbn [length app].
        split; [f_equal; f_equal; f_equal; lia|]. repeat split; try assumption. f_equal. exact LL.
Qed.

Lemma forall2_split : forall {A B} (R : A -> B -> Prop) la1 la2 lb1 lb2, length la1 = length lb1 -> Forall2 R (la1 ++ la2) (lb1 ++ lb2) -> Forall2 R la1 lb1 /\ Forall2 R la2 lb2.
Proof.
  intros A B R. induction la1 as [|x la1 IH]; intros la2 lb1 lb2 L F; destruct lb1 as [|y lb1]; try discriminate; cbn in *.
  - split; [constructor | exact F].
  - inversion F as [|? ? ? ? H F2]; subst. destruct (IH la2 lb1 lb2) as [A1 A2]; [lia | exact F2 |]. split; [constructor; assumption | exact A2].
Qed.

Lemma filter_one : forall l1 i l2, NoDup (map d_handle (l1 ++ i :: l2)) ->
  filter (fun x => negb (d_handle x =? d_handle i)) (l1 ++ i :: l2) = l1 ++ l2.
Proof.
  intros l1 i l2 ND.
  assert (ALL : forall l, ~ In (d_handle i) (map d_handle l) -> filter (fun x => negb (d_handle x =? d_handle i)) l = l).
  { induction l as [|x l IH]; intros NI; [reflexivity|]. cbn [filter]. destruct (d_handle x =? d_handle i) eqn:E.
    - exfalso. apply NI. left. apply N.eqb_eq. exact E.
    - cbn [negb]. f_equal. apply IH. intros X. apply NI. right. exact X. }
  rewrite map_app in ND. cbn [map] in ND. apply NoDup_remove in ND. destruct ND as [_ NI].
  rewrite filter_app. cbn [filter]. rewrite N.eqb_refl. cbn [negb]. f_equal; apply ALL; intros X; apply NI; apply in_or_app; tauto.
Qed.
Lemma filter_none : forall l h, (forall i, In i l -> d_handle i <> h) -> filter (fun x => negb (d_handle x =? h)) l = l.
Proof.
  induction l as [|x l IH]; intros h H; [reflexivity|]. cbn [filter]. destruct (d_handle x =? h) eqn:E.
  - exfalso. apply (H x); [left; reflexivity | apply N.eqb_eq; exact E].
  - cbn [negb]. f_equal. apply IH. intros i I. apply H. right. exact I.
Qed.

Lemma remove_entry_ok : forall s l handle, inv s l -> NoDup (map d_handle l) ->
  exists g l', remove_entry s handle = Ok g /\ inv (last g s) l' /\ Permutation l' (filter (fun i => negb (d_handle i =? handle)) l)
    /\ in_progress (last g s) = false /\ modified (last g s) = true /\ shielded s g.
Proof.
  intros s l handle [(ps & rest & E & ES & EA & F & ND & R & B) EP AR FR] HND. pose proof (f2_length _ _ _ F) as L.
  unfold remove_entry. set (s1 := begin_update s). cbn [begin_update with_status d_boxes d_arrays d_free d_size d_ptr d_actual d_slice] in *.
  assert (E1 : d_arrays s1 (d_slice s1) = Some (ps ++ rest)) by exact E. rewrite E1.
  assert (Z1 : d_size s1 = N.of_nat (length ps)) by exact ES. rewrite Z1.
  assert (T : (N.of_nat (length (ps ++ rest)) <? N.of_nat (length ps)) = false) by (rewrite app_length; lia). rewrite T.
  rewrite Nat2N.id, firstn_app, Nat.sub_diag, firstn_all, firstn_O, app_nil_r.
  pose proof (bits_begin s) as [PB MB].
  assert (SAME : forall y, d_status y = d_status s1 -> in_progress y = true /\ modified y = modified s).
  { intros y Y. unfold in_progress, modified in *. rewrite Y. split; assumption. }
  destruct (search_ok (d_boxes s1) handle ps l 0 F) as [[SR NH]|(pre & p & post & l1 & i & l2 & SR & PS & LS & LP & HH)]; rewrite SR; cbn [bind].
  - exists [s1; end_update s1], l. split; [reflexivity|]. cbn [last]. split; [|split; [|split; [|split]]].
    + apply inv_status, inv_status. split; [exists ps, rest; tauto | exact EP | exact AR | exact FR].
    + rewrite filter_none by exact NH. apply Permutation_refl.
    + apply bits_end.
    + apply bits_end.
    + intros x [<-|[<-|[]]]; [left; apply SAME; reflexivity | right; reflexivity].
  - cbn [Nat.add].
    set (k := (length ps - 1)%nat). set (lastp := if N.of_nat (length ps) =? 0 then 0 else nth k (ps ++ rest) 0).
    set (moved := if (length pre =? k)%nat then ps ++ rest else set_nth (length pre) lastp (ps ++ rest)).
    set (s4 := with_slot (with_slot (with_boxes s1 (upd (d_boxes s1) p None)) moved) (set_nth k 0 moved)).
    eexists. 
    assert (NIp : ~ In p (pre ++ post)) by (rewrite PS in ND; apply NoDup_remove in ND; apply ND).
    assert (ND2 : NoDup (pre ++ post)) by (rewrite PS in ND; apply NoDup_remove in ND; apply ND).
    rewrite PS, LS in F. destruct (forall2_split _ _ _ _ _ LP F) as [F1 F2]. inversion F2 as [|? ? ? ? FP F3]; subst x y l0 l'.
    assert (LEN : length ps = (length pre + S (length post))%nat) by (rewrite PS, app_length; reflexivity).
    (* the pointers and entries after the move *)
    assert (NEW : exists ps' l' rest', set_nth k 0 moved = ps' ++ rest' /\ length (ps' ++ rest') = length (ps ++ rest) /\ S (length ps') = length ps
      /\ Permutation ps' (pre ++ post) /\ Permutation l' (l1 ++ l2) /\ Forall2 (fun p i => d_boxes s1 p = Some i) ps' l').
    { destruct post as [|q0 post0].
      - inversion F3; subst. exists pre, l1, (0 :: rest). rewrite !app_nil_r.
        assert (K : k = length pre) by (unfold k; cbn [length] in LEN; lia).
        assert (M : moved = pre ++ p :: rest) by (unfold moved; rewrite K, Nat.eqb_refl, <- app_assoc; reflexivity).
        rewrite M, K, set_nth_app. split; [reflexivity|]. split; [rewrite <- app_assoc, !app_length; reflexivity|]. split; [rewrite app_length; cbn [length]; lia|]. split; [reflexivity|]. split; [reflexivity | exact F1].
      - destruct (exists_last (l := q0 :: post0)) as [mid [lp EM]]; [discriminate|]. rewrite EM in *.
        apply Forall2_app_inv_l in F3. destruct F3 as (m1 & m2 & F4 & F5 & EL2). inversion F5 as [|? li ? ? FL F6]; subst. inversion F6; subst.
        assert (EQ : pre ++ p :: (mid ++ [lp]) = (pre ++ p :: mid) ++ [lp]) by (rewrite <- app_assoc; reflexivity).
        assert (K : k = length (pre ++ p :: mid)).
        { unfold k. rewrite EQ, app_length. cbn [length]. lia. }
        assert (NP : (length pre =? k)%nat = false) by (rewrite K, app_length; cbn [length]; apply Nat.eqb_neq; lia).
        assert (LPE : lastp = lp).
        { unfold lastp. assert (Z : (N.of_nat (length (pre ++ p :: (mid ++ [lp]))) =? 0) = false) by (rewrite app_length; cbn [length]; lia).
          rewrite Z, K, EQ, <- app_assoc. cbn [app]. apply nth_app_len. }
        assert (M : moved = pre ++ lp :: mid ++ lp :: rest).
        { unfold moved. rewrite NP, LPE, <- !app_assoc. cbn [app]. rewrite set_nth_app, <- app_assoc. reflexivity. }
        exists (pre ++ lp :: mid), (l1 ++ li :: m1), (0 :: rest). rewrite M.
        assert (K2 : k = length (pre ++ lp :: mid)) by (rewrite K, !app_length; reflexivity).
        split.
        { rewrite K2. replace (pre ++ lp :: mid ++ lp :: rest) with ((pre ++ lp :: mid) ++ lp :: rest) by (rewrite <- app_assoc; reflexivity).
          apply set_nth_app. }
        split; [rewrite !app_length; cbn [length]; rewrite !app_length; cbn [length]; lia|].
        split; [rewrite !app_length; cbn [length]; rewrite !app_length; cbn [length]; lia|].
        split; [apply Permutation_app_head, Permutation_cons_append|].
        split; [apply Permutation_app_head, Permutation_cons_append|].
        apply Forall2_app; [exact F1 | constructor; assumption]. }
    destruct NEW as (ps' & l' & rest' & EN & LEN2 & LEN3 & P1 & P2 & F').
    exists l'. split; [reflexivity|]. cbn [last]. fold s4.
    assert (IN' : forall q, In q ps' <-> In q (pre ++ post)).
    { intros q. split; apply Permutation_in; [exact P1 | symmetry; exact P1]. }
    split; [|split; [|split; [|split]]].
    + apply inv_status. unfold s4, with_size, with_slot, with_boxes; split; cbn [d_boxes d_arrays d_free d_status d_size d_ptr d_actual d_slice].
      * exists ps', rest'. rewrite upd_same, EN. split; [reflexivity|].
        change (d_size s1) with (d_size s). split; [lia|].
        split; [change (d_actual s1) with (d_actual s); rewrite LEN2; exact EA|].
        split; [apply forall2_frame; [rewrite IN'; exact NIp | exact F']|].
        split; [apply (Permutation_NoDup (l := pre ++ post)); [symmetry; exact P1 | exact ND2]|].
        split.
        -- intros q Q. apply IN' in Q. apply R. rewrite PS. apply in_app_or in Q. apply in_or_app. cbn [In]. tauto.
        -- intros q Q. destruct (N.eq_dec q p) as [->|NQ]; [rewrite upd_same in Q; congruence|]. rewrite upd_other in Q by exact NQ.
           apply IN'. apply B in Q. rewrite PS in Q. apply in_app_or in Q. apply in_or_app. cbn [In] in Q. destruct Q as [Q|[Q|Q]]; [tauto | congruence | tauto].
      * exact EP.
      * intros q X. destruct (N.eq_dec q (d_slice s1)) as [Q|Q]; [exact Q|]. rewrite !upd_other in X by exact Q. apply AR. exact X.
      * exact FR.
    + rewrite LS, <- HH, filter_one by (rewrite <- LS; exact HND). exact P2.
    + apply bits_end.
    + apply bits_end.
    + intros x X. cbn [In] in X. destruct X as [<-|[<-|[<-|[<-|[<-|[<-|[]]]]]]]; try (left; apply SAME; reflexivity). right. reflexivity.
Qed.
