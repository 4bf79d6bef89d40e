(** The pages of one allocator: the runs it has taken from the memory map, its reserve and its statistics. *)
From Coq Require Import Permutation.
From Verif Require Import Base.Prelude Align.Model Align.Proofs Align.Main Gcd.Blocks Gcd.Model Gcd.Spec Gcd.BlockProofs Gcd.Proofs Gcd.AllocProofs Gcd.Main Gcd.Hist Gcd.Complete Alloc.Model Alloc.Spec Alloc.Pool.
Local Open Scope N_scope.

(** Allocated or not, and the owner. *)
Definition tag (g : gcd) (x : N) : option (bool * N) :=
  option_map (fun s => (ms_alloc s, ms_image s)) (state_at (g_blocks g) x).

(** ** Sums of disjoint runs *)
Definition bytes (R : list (N * N)) : N := total (map snd R).
Definition npages (R : list (N * N)) : N := total (map (fun r => snd r / PAGE) R).

Lemma total_perm : forall l l', Permutation l l' -> total l = total l'.
Proof. intros l l' P. induction P; cbn [total]; lia. Qed.
Lemma bytes_perm : forall l l', Permutation l l' -> bytes l = bytes l'.
Proof. intros. apply total_perm. now apply Permutation_map. Qed.
Lemma npages_perm : forall l l', Permutation l l' -> npages l = npages l'.
Proof. intros. unfold npages. apply total_perm. now apply Permutation_map. Qed.
Lemma filter_perm : forall A (f : A -> bool) l l', Permutation l l' -> Permutation (filter f l) (filter f l').
Proof.
  intros A f l l' P. induction P as [|x l l' P IH|x y l|l l' l'' P1 IH1 P2 IH2]; cbn [filter].
  - constructor.
  - destruct (f x); [now apply perm_skip|exact IH].
  - destruct (f x), (f y); try apply perm_swap; reflexivity.
  - now rewrite IH1.
Qed.

Lemma npages_cons : forall r R, npages (r :: R) = snd r / PAGE + npages R.
Proof. reflexivity. Qed.
Lemma bytes_cons : forall r R, bytes (r :: R) = snd r + bytes R.
Proof. reflexivity. Qed.

Lemma lowest : forall (l : list (N * N)), l <> [] -> exists m r, Permutation l (m :: r) /\ Forall (fun v => fst m <= fst v) r.
Proof.
  induction l as [|u l IH]; intros H; [contradiction|]. destruct l as [|u' l]; [exists u, []; split; [reflexivity|constructor]|].
  destruct IH as (m & r & P & F); [discriminate|]. destruct (N.le_gt_cases (fst u) (fst m)).
  - exists u, (m :: r). split; [now rewrite P|]. constructor; [assumption|]. eapply Forall_impl; [|exact F]. cbn. intros; lia.
  - exists m, (u :: r). split; [rewrite P; apply perm_swap|]. constructor; [lia|exact F].
Qed.

Lemma disjoint_sum : forall n l lo hi, length l = n -> FOP apart l ->
  Forall (fun r => 0 < snd r /\ lo <= fst r /\ fst r + snd r <= hi) l -> lo <= hi -> bytes l <= hi - lo.
Proof.
  induction n as [|n IH]; intros l lo hi HL HA HF Hlo.
  - destruct l; [|discriminate]. cbn. lia.
  - destruct (lowest l) as (m & r & P & F); [intros ->; discriminate|].
    rewrite (bytes_perm _ _ P). pose proof (FOP_perm _ _ _ _ apart_sym P HA) as HA'. apply FOP_cons in HA'. destruct HA' as (A1 & A2).
    pose proof (Permutation_Forall P HF) as HF'. inversion HF' as [|? ? M1 M2]; subst.
    assert (bytes r <= hi - (fst m + snd m)).
    { apply IH; [|exact A2| |lia].
      - apply Permutation_length in P. cbn [length] in P. lia.
      - apply Forall_forall. intros v Hv. rewrite Forall_forall in *. specialize (F v Hv). specialize (A1 v Hv). specialize (M2 v Hv).
        unfold apart in A1. lia. }
    unfold bytes in *. cbn [map total]. lia.
Qed.

Lemma npages_bytes : forall R, Forall (fun r => snd r mod PAGE = 0) R -> npages R * PAGE = bytes R.
Proof.
  induction R as [|r R IH]; intros H; [reflexivity|]. inversion H; subst. unfold npages, bytes in *. cbn [map total].
  specialize (IH H3). pose proof (N.div_mod' (snd r) PAGE). unfold PAGE in *. lia.
Qed.
Lemma npages_app : forall a b, npages (a ++ b) = npages a + npages b.
Proof. induction a as [|x a IH]; intros b; unfold npages in *; cbn [app map total]; [lia|]. rewrite IH. lia. Qed.
Lemma npages_split : forall f R, npages R = npages (filter f R) + npages (filter (fun r => negb (f r)) R).
Proof.
  induction R as [|r R IH]; [reflexivity|]. cbn [filter]. destruct (f r); cbn [negb]; unfold npages in *; cbn [map total]; lia.
Qed.
Lemma FOP_filter : forall A (R : A -> A -> Prop) f l, FOP R l -> FOP R (filter f l).
Proof.
  induction l as [|x l IH]; intros H; [constructor|]. apply FOP_cons in H. destruct H as (H1 & H2). cbn [filter].
  destruct (f x); [|auto]. apply FOP_cons. split; [|auto]. rewrite Forall_forall in *. intros y Hy. apply H1. apply filter_In in Hy. tauto.
Qed.

(** ** The invariant *)
Definition rin (r : N * N) (x : N) : Prop := in_range (fst r) (snd r) x.

Record rinv0 (bits : N) (g : gcd) (a : alloc) (R : list (N * N)) : Prop := {
  r_bits : bits < 64;
  r_gran : exists k, al_gran a = 2 ^ k /\ 12 <= k /\ k < 64;
  r_apart : FOP apart R;
  r_run : Forall (fun r => 0 < snd r /\ 0 < fst r /\ fst r mod al_gran a = 0 /\ snd r mod al_gran a = 0 /\ fst r + snd r <= 2 ^ bits) R;
  r_owned : forall r x, In r R -> rin r x -> tag g x = Some (true, al_handle a);
  r_side : forall r, In r R -> (forall x, rin r x -> in_reserved a x = true) \/ (forall x, rin r x -> in_reserved a x = false);
  r_res : match al_range a with
          | None => al_rsize a = 0
          | Some (b, l) => al_rsize a = l /\ l mod PAGE = 0 /\ b + l <= 2 ^ bits
          end;
  r_resowner : forall x, in_reserved a x = true -> exists f, tag g x = Some (f, al_handle a);
  r_free : forall x, tag g x = Some (false, al_handle a) -> in_reserved a x = true;
  r_used : al_rused a = bytes (filter (fun r => in_reserved a (fst r)) R);
  r_claimed : al_claimed a = al_rsize a / PAGE + npages (filter (fun r => negb (in_reserved a (fst r))) R) }.
Definition rinv bits g a R := rinv0 bits g a R /\ al_pages a = npages R mod two32.

Lemma rinv0_perm : forall bits g a R R', Permutation R R' -> rinv0 bits g a R -> rinv0 bits g a R'.
Proof.
  intros bits g a R R' P []. constructor; auto.
  - eapply FOP_perm; eauto. apply apart_sym.
  - eapply Permutation_Forall; eauto.
  - intros r x Hr. apply r_owned0. eapply Permutation_in; [apply Permutation_sym; exact P|exact Hr].
  - intros r Hr. apply r_side0. eapply Permutation_in; [apply Permutation_sym; exact P|exact Hr].
  - rewrite r_used0. apply bytes_perm. now apply filter_perm.
  - rewrite r_claimed0. f_equal. apply npages_perm. now apply filter_perm.
Qed.
Lemma rinv_perm : forall bits g a R R', Permutation R R' -> rinv bits g a R -> rinv bits g a R'.
Proof.
  intros bits g a R R' P (H1 & H2). split; [eapply rinv0_perm; eauto|]. rewrite H2. f_equal. now apply npages_perm.
Qed.

(** The map keeps, for owner [h], which addresses are allocated and which are free. *)
Definition keeps (g g' : gcd) (h : N) : Prop := forall x f, tag g x = Some (f, h) <-> tag g' x = Some (f, h).
Lemma keeps_refl : forall g h, keeps g g h.
Proof. intros g h x f. reflexivity. Qed.

Lemma rinv0_keeps : forall bits g g' a R, keeps g g' (al_handle a) -> rinv0 bits g a R -> rinv0 bits g' a R.
Proof.
  intros bits g g' a R K []. constructor; auto.
  - intros r x Hr Hx. apply K. eauto.
  - intros x Hx. destruct (r_resowner0 x Hx) as (f & Hf). exists f. now apply K.
  - intros x Hx. apply r_free0. now apply K.
Qed.

(** Same allocator as far as pages are concerned. *)
Definition same_pages (a a' : alloc) : Prop :=
  al_handle a' = al_handle a /\ al_gran a' = al_gran a /\ al_range a' = al_range a /\ al_rsize a' = al_rsize a /\
  al_rused a' = al_rused a /\ al_claimed a' = al_claimed a.
Lemma rinv0_same : forall bits g a a' R, same_pages a a' -> rinv0 bits g a R -> rinv0 bits g a' R.
Proof.
  intros bits g a a' R (E1 & E2 & E3 & E4 & E5 & E6) [].
  assert (E : forall x, in_reserved a' x = in_reserved a x) by (intros x; unfold in_reserved; now rewrite E3).
  constructor; rewrite ?E1, ?E2, ?E3, ?E4, ?E5, ?E6; auto.
  - intros r Hr. destruct (r_side0 r Hr) as [H|H]; [left|right]; intros x Hx; rewrite E; auto.
  - intros x. rewrite E. auto.
  - intros x Hx. rewrite E. auto.
  - rewrite r_used0. f_equal. apply filter_ext. intros r. now rewrite E.
  - rewrite r_claimed0. do 2 f_equal. apply filter_ext. intros r. now rewrite E.
Qed.

Lemma pow_le_64 : forall bits, bits < 64 -> 2 ^ bits <= 2 ^ 63.
Proof. intros. apply N.pow_le_mono_r; lia. Qed.

Lemma gran_page : forall k x, 12 <= k -> x mod 2 ^ k = 0 -> x mod PAGE = 0.
Proof.
  intros k x Hk H. apply (pow2_divides PAGE (2 ^ k) x); [exists 12; reflexivity|eauto| |exact H].
  change PAGE with (2 ^ 12). apply N.pow_le_mono_r; lia.
Qed.

Lemma rinv_pagesize : forall bits g a R, rinv0 bits g a R -> Forall (fun r => snd r mod PAGE = 0) R.
Proof.
  intros bits g a R []. destruct r_gran0 as (k & E & Hk & _). eapply Forall_impl; [|exact r_run0]. cbn.
  intros r (_ & _ & _ & H & _). rewrite E in H. eapply gran_page; eauto.
Qed.
Lemma Forall_filter : forall A (P : A -> Prop) f l, Forall P l -> Forall P (filter f l).
Proof. intros A P f l H. rewrite Forall_forall in *. intros x Hx. apply filter_In in Hx. apply H. tauto. Qed.

Lemma rinv_bytes : forall bits g a R, rinv0 bits g a R -> bytes R <= 2 ^ bits.
Proof.
  intros bits g a R []. replace (2 ^ bits) with (2 ^ bits - 0) by lia. eapply disjoint_sum; [reflexivity|exact r_apart0| |lia].
  eapply Forall_impl; [|exact r_run0]. cbn. intros; lia.
Qed.

(** The runs in the reserve fit in it. *)
Lemma reserve_bytes : forall bits g a R, rinv0 bits g a R -> bytes (filter (fun r => in_reserved a (fst r)) R) <= al_rsize a.
Proof.
  intros bits g a R I. destruct I. destruct (al_range a) as [[b l]|] eqn:ER.
  - destruct r_res0 as (E & _). rewrite E. replace l with (b + l - b) by lia.
    eapply disjoint_sum; [reflexivity|now apply FOP_filter| |lia].
    apply Forall_forall. intros r Hr. apply filter_In in Hr. destruct Hr as (Hr & HI). rewrite Forall_forall in r_run0.
    specialize (r_run0 r Hr). destruct (r_side0 r Hr) as [H|H].
    + pose proof (H (fst r) ltac:(unfold rin, in_range; lia)) as H1.
      pose proof (H (fst r + snd r - 1) ltac:(unfold rin, in_range; lia)) as H2.
      unfold in_reserved in H1, H2. rewrite ER in H1, H2. lia.
    + rewrite (H (fst r)) in HI; [discriminate|]. unfold rin, in_range. lia.
  - assert (E : filter (fun r => in_reserved a (fst r)) R = []).
    { clear - ER. induction R as [|r R IH]; [reflexivity|]. cbn [filter]. unfold in_reserved in *. rewrite ER in *. exact IH. }
    rewrite E. cbn. lia.
Qed.

Lemma size_to_pages_ok : forall dbg n, n <= 2 ^ 63 -> size_to_pages dbg n = Ok ((n + 4095) / PAGE).
Proof.
  intros dbg n H. unfold size_to_pages, uadd. change two64 with 18446744073709551616. change (2 ^ 63) with 9223372036854775808 in H.
  assert (E : n + 4095 <? 18446744073709551616 = true) by lia. rewrite E. reflexivity.
Qed.
Lemma exact_pages : forall n, n mod PAGE = 0 -> (n + 4095) / PAGE = n / PAGE.
Proof.
  intros n H. pose proof (N.div_mod' n PAGE) as D. rewrite H in D. rewrite D at 1. rewrite N.add_0_r.
  rewrite N.mul_comm, N.div_add_l by discriminate. rewrite (N.div_small 4095) by reflexivity. lia.
Qed.

Lemma update_ok : forall bits dbg g a R, rinv0 bits g a R -> update_info dbg a = Ok (with_pages a (npages R mod two32)).
Proof.
  intros bits dbg g a R I. pose proof (reserve_bytes _ _ _ _ I) as B1. pose proof (rinv_bytes _ _ _ _ I) as B2.
  pose proof (rinv_pagesize _ _ _ _ I) as B3. pose proof (r_used _ _ _ _ I) as U. pose proof (r_claimed _ _ _ _ I) as C.
  pose proof (r_bits _ _ _ _ I) as HB. pose proof (pow_le_64 _ HB) as HB2. pose proof (r_res _ _ _ _ I) as RS.
  assert (S1 : al_rsize a mod PAGE = 0 /\ al_rsize a <= 2 ^ 63).
  { destruct (al_range a) as [[b l]|]; [destruct RS as (-> & ? & ?); split; [assumption|lia]|rewrite RS; split; [reflexivity|lia]]. }
  set (fi := filter (fun r => in_reserved a (fst r)) R) in *. set (fo := filter (fun r => negb (in_reserved a (fst r))) R) in *.
  pose proof (npages_bytes fi (Forall_filter _ _ _ _ B3)) as N1. pose proof (npages_bytes fo (Forall_filter _ _ _ _ B3)) as N2.
  pose proof (npages_bytes R B3) as N3. pose proof (npages_split (fun r => in_reserved a (fst r)) R) as N4. cbv beta in N4. fold fi fo in N4.
  unfold update_info, usub. rewrite U. assert (E1 : bytes fi <=? al_rsize a = true) by lia. rewrite E1. cbn [bind].
  rewrite size_to_pages_ok by lia. cbn [bind].
  pose proof (N.div_mod' (al_rsize a) PAGE) as D. destruct S1 as (S1 & S2). rewrite S1 in D.
  assert (E2 : (al_rsize a - bytes fi + 4095) / PAGE = al_rsize a / PAGE - npages fi).
  { replace (al_rsize a - bytes fi) with ((al_rsize a / PAGE - npages fi) * PAGE) by (rewrite N.mul_sub_distr_r; lia).
    rewrite N.div_add_l by discriminate. rewrite (N.div_small 4095) by reflexivity. lia. }
  rewrite E2, C. assert (Q : npages fi <= al_rsize a / PAGE) by (unfold PAGE in *; lia).
  assert (E3 : al_rsize a / PAGE - npages fi <=? al_rsize a / PAGE + npages fo = true) by lia. rewrite E3. cbn [bind].
  replace (al_rsize a / PAGE + npages fo - (al_rsize a / PAGE - npages fi)) with (npages R) by lia. reflexivity.
Qed.

(** The allocator takes the free range [v, v+len). *)
Definition took (bits : N) (g g' : gcd) (h k v len : N) : Prop :=
  0 < len /\ v + len <= 2 ^ bits /\
  (forall x, in_range v len x -> tag g x = Some (false, k) /\ tag g' x = Some (true, h)) /\
  (forall x, ~ in_range v len x -> tag g' x = tag g x).

Lemma in_range_dec : forall b l x, in_range b l x \/ ~ in_range b l x.
Proof. intros. unfold in_range. lia. Qed.

Lemma apart_or : forall u v, 0 < snd u -> 0 < snd v -> (exists x, rin u x /\ rin v x) \/ apart u v.
Proof.
  intros u v H1 H2. unfold apart, rin, in_range. destruct (N.le_gt_cases (fst u + snd u) (fst v)); [auto|].
  destruct (N.le_gt_cases (fst v + snd v) (fst u)); [auto|]. left. exists (N.max (fst u) (fst v)). lia.
Qed.
Lemma rin_first : forall r, 0 < snd r -> rin r (fst r).
Proof. intros r H. unfold rin, in_range. lia. Qed.

Lemma took_keeps : forall bits g g' h k v len h2, took bits g g' h k v len -> k <> h2 -> h <> h2 -> keeps g g' h2.
Proof.
  intros bits g g' h k v len h2 (_ & _ & H1 & H2) K1 K2 x f. destruct (in_range_dec v len x) as [Hx|Hx].
  - destruct (H1 x Hx) as (-> & ->). split; intros H; inversion H; congruence.
  - rewrite (H2 x Hx). reflexivity.
Qed.

(** Without the statistics, the new run extends the invariant. *)
Lemma take_side : forall bits g g' a R k v len, rinv0 bits g a R -> took bits g g' (al_handle a) k v len ->
  (forall x, in_range v len x -> in_reserved a x = true) \/ (forall x, in_range v len x -> in_reserved a x = false).
Proof.
  intros bits g g' a R k v len I (L0 & _ & T1 & _). destruct (N.eq_dec k (al_handle a)) as [->|Hn]; [left|right]; intros x Hx.
  - apply (r_free _ _ _ _ I). now apply T1.
  - destruct (in_reserved a x) eqn:E; [|reflexivity]. destruct (r_resowner _ _ _ _ I x E) as (f & Hf).
    destruct (T1 x Hx) as (T & _). congruence.
Qed.

Lemma rinv_take : forall bits dbg g g' a R k v len, rinv0 bits g a R -> took bits g g' (al_handle a) k v len ->
  0 < v -> v mod al_gran a = 0 -> len mod al_gran a = 0 ->
  exists a', notify_allocation dbg a v len = Ok a' /\ rinv bits g' a' ((v, len) :: R) /\
    al_type a' = al_type a /\ al_handle a' = al_handle a /\ al_gran a' = al_gran a /\ al_range a' = al_range a /\
    al_lists a' = al_lists a /\ al_heaps a' = al_heaps a.
Proof.
  intros bits dbg g g' a R k v len I T V0 V1 V2. pose proof (take_side _ _ _ _ _ _ _ _ I T) as SD. pose proof T as (L0 & Lb & T1 & T2).
  pose proof (r_bits _ _ _ _ I) as HB. pose proof (pow_le_64 _ HB) as HB2.
  destruct (r_gran _ _ _ _ I) as (kk & Ek & Hk & Hk2).
  assert (PG : len mod PAGE = 0) by (rewrite Ek in V2; eapply gran_page; eauto).
  assert (MK : forall u c,
    u = bytes (filter (fun r => in_reserved a (fst r)) ((v, len) :: R)) ->
    c = al_rsize a / PAGE + npages (filter (fun r => negb (in_reserved a (fst r))) ((v, len) :: R)) ->
    rinv0 bits g' (with_stats a u c) ((v, len) :: R)).
  { intros u c Hu Hc. destruct I. constructor; cbn [with_stats al_gran al_handle al_range al_rsize al_rused al_claimed]; auto.
    - apply FOP_cons. split; [|exact r_apart0]. apply Forall_forall. intros r Hr. rewrite Forall_forall in r_run0.
      destruct (r_run0 r Hr) as (S0 & _). destruct (apart_or (v, len) r L0 S0) as [(x & X1 & X2)|AP]; [|exact AP]. exfalso.
      destruct (T1 x X1) as (X & _). rewrite (r_owned0 r x Hr X2) in X. discriminate.
    - constructor; [cbn [fst snd]; auto|exact r_run0].
    - intros r x [<-|Hr] Hx; [apply T1; exact Hx|]. destruct (in_range_dec v len x) as [Hi|Hi]; [now apply T1|].
      rewrite T2 by exact Hi. eauto.
    - intros r [<-|Hr]; [exact SD|]. apply r_side0. exact Hr.
    - intros x Hx. destruct (in_range_dec v len x) as [Hi|Hi]; [exists true; now apply T1|]. rewrite T2 by exact Hi.
      apply r_resowner0. exact Hx.
    - intros x Hx. destruct (in_range_dec v len x) as [Hi|Hi]; [destruct (T1 x Hi) as (_ & E); congruence|].
      rewrite T2 in Hx by exact Hi. apply r_free0. exact Hx. }
  pose proof (r_used _ _ _ _ I) as U. pose proof (r_claimed _ _ _ _ I) as C.
  pose proof (rinv_bytes _ _ _ _ I) as B2. pose proof (rinv_pagesize _ _ _ _ I) as B3.
  unfold notify_allocation. destruct (in_reserved a v) eqn:EV.
  - specialize (MK (al_rused a + len) (al_claimed a)). cbn [filter fst] in MK. rewrite EV in MK. cbn [negb] in MK.
    assert (I' : rinv0 bits g' (with_stats a (al_rused a + len) (al_claimed a)) ((v, len) :: R)).
    { apply MK; [unfold bytes; cbn [map snd total]; rewrite U; unfold bytes; lia|exact C]. }
    pose proof (reserve_bytes _ _ _ _ I') as RB. pose proof (r_used _ _ _ _ I') as U'. cbn [with_stats al_rused al_rsize] in U', RB.
    pose proof (r_res _ _ _ _ I) as RS.
    assert (RZ : al_rsize a <= 2 ^ 63) by (destruct (al_range a) as [[b l]|]; [destruct RS as (-> & ? & ?); lia|rewrite RS; lia]).
    assert (LT : al_rused a + len < two64) by (change two64 with (2 * 2 ^ 63); lia).
    unfold uadd. assert (E : al_rused a + len <? two64 = true) by lia. rewrite E. cbn [bind].
    rewrite (update_ok _ dbg _ _ _ I'). eexists. split; [reflexivity|]. split; [|repeat split; reflexivity].
    split; [|reflexivity]. eapply rinv0_same; [|exact I']. repeat split; reflexivity.
  - specialize (MK (al_rused a) (al_claimed a + len / PAGE)). cbn [filter fst] in MK. rewrite EV in MK. cbn [negb] in MK.
    assert (I' : rinv0 bits g' (with_stats a (al_rused a) (al_claimed a + len / PAGE)) ((v, len) :: R)).
    { apply MK; [exact U|]. unfold npages at 1. cbn [map snd total]. fold (npages (filter (fun r => negb (in_reserved a (fst r))) R)). lia. }
    rewrite size_to_pages_ok by lia. cbn [bind]. rewrite exact_pages by exact PG.
    pose proof (r_res _ _ _ _ I) as RS.
    assert (RZ : al_rsize a <= 2 ^ 63) by (destruct (al_range a) as [[b l]|]; [destruct RS as (-> & ? & ?); lia|rewrite RS; lia]).
    pose proof (npages_split (fun r => in_reserved a (fst r)) R) as N4. cbv beta in N4. pose proof (npages_bytes R B3) as N3.
    assert (LT : al_claimed a + len / PAGE < two64).
    { rewrite C. change two64 with (2 * 2 ^ 63). pose proof (N.div_le_upper_bound (al_rsize a) PAGE (2 ^ 51) ltac:(discriminate)) as D1.
      pose proof (N.div_le_upper_bound len PAGE (2 ^ 51) ltac:(discriminate)) as D2.
      change (PAGE * 2 ^ 51) with (2 ^ 63) in *. specialize (D1 RZ). specialize (D2 ltac:(lia)).
      assert (npages R <= 2 ^ 51) by (change (2 ^ 63) with (PAGE * 2 ^ 51) in HB2; unfold PAGE in *; lia).
      change (2 * 2 ^ 63) with (8192 * 2 ^ 51). lia. }
    unfold uadd. assert (E : al_claimed a + len / PAGE <? two64 = true) by lia. rewrite E. cbn [bind].
    rewrite (update_ok _ dbg _ _ _ I'). eexists. split; [reflexivity|]. split; [|repeat split; reflexivity].
    split; [|reflexivity]. eapply rinv0_same; [|exact I']. repeat split; reflexivity.
Qed.

Lemma minus_head : forall a b, a + b - a = b.
Proof. intros; lia. Qed.
Lemma minus_mid : forall a b c, a + (b + c) - b = a + c.
Proof. intros; lia. Qed.
(** The allocator returns one of its runs; the map may have ignored it (after boot services have ended). *)
Definition gave (g g' : gcd) (h : N) (res : bool) (v len : N) : Prop :=
  (forall x, tag g' x = tag g x) \/
  ((forall x, in_range v len x -> tag g x = Some (true, h) /\ tag g' x = Some (false, if res then h else 0)) /\
   (forall x, ~ in_range v len x -> tag g' x = tag g x)).

Lemma gave_keeps : forall g g' h res v len h2, gave g g' h res v len -> h2 <> 0 -> h <> h2 -> keeps g g' h2.
Proof.
  intros g g' h res v len h2 [H|(H1 & H2)] K1 K2 x f; [rewrite H; reflexivity|]. destruct (in_range_dec v len x) as [Hx|Hx].
  - destruct (H1 x Hx) as (-> & ->). split; intros H; inversion H; try congruence. destruct res; congruence.
  - rewrite (H2 x Hx). reflexivity.
Qed.

Lemma rinv_give : forall bits dbg g g' a R v len n, rinv0 bits g a ((v, len) :: R) -> al_handle a <> 0 ->
  gave g g' (al_handle a) (in_reserved a v) v len -> n * PAGE = len ->
  exists a', notify_freed dbg a v n = Ok a' /\ rinv bits g' a' R /\
    al_type a' = al_type a /\ al_handle a' = al_handle a /\ al_gran a' = al_gran a /\ al_range a' = al_range a /\
    al_lists a' = al_lists a /\ al_heaps a' = al_heaps a.
Proof.
  intros bits dbg g g' a R v len n I H0 GV En. pose proof (r_bits _ _ _ _ I) as HB. pose proof (pow_le_64 _ HB) as HB2.
  assert (RV : 0 < len /\ 0 < v /\ v mod al_gran a = 0 /\ len mod al_gran a = 0 /\ v + len <= 2 ^ bits).
  { exact (Forall_inv (r_run _ _ _ _ I)). }
  assert (SD : forall x, in_range v len x -> in_reserved a x = in_reserved a v).
  { intros x Hx. assert (Hv : in_range v len v) by (apply (rin_first (v, len)); apply RV).
    destruct (r_side _ _ _ _ I (v, len) (or_introl eq_refl)) as [H|H]; rewrite !H by (unfold rin; cbn [fst snd]; assumption); reflexivity. }
  assert (MK : forall u c,
    u = bytes (filter (fun r => in_reserved a (fst r)) R) ->
    c = al_rsize a / PAGE + npages (filter (fun r => negb (in_reserved a (fst r))) R) ->
    rinv0 bits g' (with_stats a u c) R).
  { intros u c Hu Hc. destruct I. apply FOP_cons in r_apart0. destruct r_apart0 as (A1 & A2). pose proof (Forall_inv_tail r_run0) as F2.
    constructor; cbn [with_stats al_gran al_handle al_range al_rsize al_rused al_claimed]; auto.
    - intros r x Hr Hx. pose proof (r_owned0 r x (or_intror Hr) Hx) as O. destruct GV as [GV|(_ & GV)]; [rewrite GV; exact O|].
      rewrite GV; [exact O|]. rewrite Forall_forall in A1. specialize (A1 r Hr). clear - A1 Hx. unfold apart, rin, in_range in *. cbn [fst snd] in *. lia.
    - intros r Hr. apply r_side0. right. exact Hr.
    - intros x Hx. destruct (r_resowner0 x Hx) as (f & Hf). destruct GV as [GV|(G1 & G2)]; [rewrite GV; eauto|].
      destruct (in_range_dec v len x) as [Hi|Hi]; [|rewrite G2 by exact Hi; eauto].
      destruct (G1 x Hi) as (_ & G). rewrite G. pose proof (SD x Hi) as E. unfold in_reserved in Hx, E at 1. cbn [with_stats al_range] in Hx.
      rewrite Hx in E. rewrite <- E. eauto.
    - intros x Hx. destruct GV as [GV|(G1 & G2)]; [rewrite GV in Hx; apply r_free0; exact Hx|].
      destruct (in_range_dec v len x) as [Hi|Hi]; [|rewrite G2 in Hx by exact Hi; apply r_free0; exact Hx].
      destruct (G1 x Hi) as (_ & G). rewrite G in Hx. change (in_reserved (with_stats a u c) x) with (in_reserved a x).
      rewrite (SD x Hi). destruct (in_reserved a v); [reflexivity|]. inversion Hx. congruence. }
  pose proof (r_used _ _ _ _ I) as U. pose proof (r_claimed _ _ _ _ I) as C.
  cbn [filter fst] in U, C. unfold notify_freed. destruct (in_reserved a v) eqn:EV; cbn [negb] in U, C.
  - rewrite bytes_cons in U. cbn [snd] in U. assert (U2 : al_rused a - len = bytes (filter (fun r => in_reserved a (fst r)) R)) by (rewrite U; apply minus_head).
    specialize (MK (al_rused a - len) (al_claimed a) U2 C).
    unfold umul. rewrite En. assert (E : len <? two64 = true) by (change two64 with (2 * 2 ^ 63); lia). rewrite E. cbn [bind].
    rewrite (update_ok _ dbg _ _ _ MK). eexists. split; [reflexivity|]. split; [|repeat split; reflexivity].
    split; [|reflexivity]. eapply rinv0_same; [|exact MK]. repeat split; reflexivity.
  - rewrite npages_cons in C. cbn [snd] in C.
    assert (EL : len / PAGE = n) by (rewrite <- En; apply N.div_mul; discriminate). rewrite EL in C.
    assert (C2 : al_claimed a - n = al_rsize a / PAGE + npages (filter (fun r => negb (in_reserved a (fst r))) R))
      by (rewrite C; apply minus_mid).
    specialize (MK (al_rused a) (al_claimed a - n) U C2). cbn [bind].
    rewrite (update_ok _ dbg _ _ _ MK). eexists. split; [reflexivity|]. split; [|repeat split; reflexivity].
    split; [|reflexivity]. eapply rinv0_same; [|exact MK]. repeat split; reflexivity.
Qed.

(** The allocator reserves [v, v+len). *)
Lemma rinv_reserve : forall bits dbg g g1 g2 a R k v len, rinv0 bits g a R -> al_range a = None -> al_handle a <> 0 ->
  took bits g g1 (al_handle a) k v len -> gave g1 g2 (al_handle a) true v len -> len mod PAGE = 0 ->
  exists a', (let* p := size_to_pages dbg len in let* c := uadd dbg (al_claimed a) p in update_info dbg (with_range a v len c)) = Ok a' /\
    rinv bits g2 a' R /\ al_type a' = al_type a /\ al_handle a' = al_handle a /\ al_gran a' = al_gran a /\
    al_lists a' = al_lists a /\ al_heaps a' = al_heaps a.
Proof.
  intros bits dbg g g1 g2 a R k v len I ER H0 T GV PG. pose proof T as (L0 & Lb & T1 & T2).
  pose proof (r_bits _ _ _ _ I) as HB. pose proof (pow_le_64 _ HB) as HB2.
  assert (NR : forall x, in_reserved a x = false) by (intros x; unfold in_reserved; now rewrite ER).
  assert (NF : forall r (c : N), In r R -> in_reserved (with_range a v len c) (fst r) = false).
  { intros r c Hr. unfold in_reserved. cbn [with_range al_range]. pose proof (r_run _ _ _ _ I) as F. rewrite Forall_forall in F. specialize (F r Hr).
    destruct ((v <=? fst r) && (fst r <? v + len)) eqn:E; [|reflexivity]. destruct (T1 (fst r)) as (X & _); [unfold in_range; lia|].
    rewrite (r_owned _ _ _ _ I r (fst r) Hr) in X; [discriminate|]. unfold rin, in_range. lia. }
  assert (FE : forall f f', (forall r, In r R -> f r = f' r) -> filter f R = filter f' R).
  { intros f f' H. clear - H. induction R as [|r R IH]; [reflexivity|]. cbn [filter]. rewrite (H r) by (left; reflexivity).
    rewrite IH by (intros; apply H; right; assumption). reflexivity. }
  pose proof (r_claimed _ _ _ _ I) as C. pose proof (r_res _ _ _ _ I) as RS. rewrite ER in RS. rewrite RS in C.
  assert (KT : forall x, ~ in_range v len x -> tag g2 x = tag g x).
  { intros x Hx. rewrite <- T2 by exact Hx. destruct GV as [GV|(_ & GV)]; auto. }
  assert (KI : forall x, in_range v len x -> exists f, tag g2 x = Some (f, al_handle a)).
  { intros x Hx. destruct GV as [GV|(GV & _)]; [exists true; rewrite GV; now apply T1|]. exists false. now apply GV. }
  assert (I' : rinv0 bits g2 (with_range a v len (al_claimed a + len / PAGE)) R).
  { assert (E1 : filter (fun r => in_reserved (with_range a v len (al_claimed a + len / PAGE)) (fst r)) R = []).
    { rewrite (FE _ (fun _ => false)) by (intros; now apply NF). clear. induction R; auto. }
    assert (E2 : filter (fun r => negb (in_reserved (with_range a v len (al_claimed a + len / PAGE)) (fst r))) R =
                 filter (fun r => negb (in_reserved a (fst r))) R).
    { apply FE. intros r Hr. now rewrite NF, NR. }
    destruct I. constructor; cbn [with_range al_gran al_handle al_range al_rsize al_rused al_claimed] in *; auto.
    - intros r x Hr Hx. pose proof (r_owned0 r x Hr Hx) as O. destruct (in_range_dec v len x) as [Hi|Hi].
      + destruct (T1 x Hi) as (X & _). congruence.
      + rewrite KT by exact Hi. exact O.
    - intros r Hr. right. intros x Hx. unfold in_reserved. cbn [with_range al_range].
      destruct ((v <=? x) && (x <? v + len)) eqn:E; [|reflexivity]. destruct (T1 x) as (X & _); [unfold in_range; lia|].
      rewrite (r_owned0 r x Hr Hx) in X. discriminate.
    - intros x Hx. apply KI. unfold in_reserved in Hx. cbn [with_range al_range] in Hx. unfold in_range. lia.
    - intros x Hx. unfold in_reserved. cbn [with_range al_range]. destruct (in_range_dec v len x) as [Hi|Hi]; [unfold in_range in Hi; lia|].
      rewrite KT in Hx by exact Hi. apply r_free0 in Hx. rewrite NR in Hx. discriminate.
    - rewrite E1. reflexivity.
    - rewrite E2, C. change (0 / PAGE) with 0. apply N.add_comm. }
  rewrite size_to_pages_ok by lia. cbn [bind]. rewrite exact_pages by exact PG.
  pose proof (rinv_bytes _ _ _ _ I) as B2. pose proof (rinv_pagesize _ _ _ _ I) as B3.
  pose proof (npages_split (fun r => in_reserved a (fst r)) R) as N4. cbv beta in N4. pose proof (npages_bytes R B3) as N3.
  assert (LT : al_claimed a + len / PAGE < two64).
  { rewrite C. change two64 with (2 * 2 ^ 63).
    pose proof (N.div_le_upper_bound len PAGE (2 ^ 51) ltac:(discriminate)) as D2.
    change (PAGE * 2 ^ 51) with (2 ^ 63) in *. specialize (D2 ltac:(lia)).
    assert (npages R <= 2 ^ 51) by (change (2 ^ 63) with (PAGE * 2 ^ 51) in HB2; unfold PAGE in *; lia).
    change (2 * 2 ^ 63) with (8192 * 2 ^ 51). change (0 / PAGE) with 0. lia. }
  unfold uadd. assert (E : al_claimed a + len / PAGE <? two64 = true) by lia. rewrite E. cbn [bind].
  rewrite (update_ok _ dbg _ _ _ I'). eexists. split; [reflexivity|]. split; [|repeat split; reflexivity].
  split; [|reflexivity]. eapply rinv0_same; [|exact I']. repeat split; reflexivity.
Qed.

(** ** From calls on the map *)
Lemma tag_of : forall g x s, state_at (g_blocks g) x = Some s -> tag g x = Some (ms_alloc s, ms_image s).
Proof. intros g x s H. unfold tag. now rewrite H. Qed.
Lemma tag_eq : forall g g' x, state_at (g_blocks g') x = state_at (g_blocks g) x -> tag g' x = tag g x.
Proof. intros g g' x H. unfold tag. now rewrite H. Qed.
