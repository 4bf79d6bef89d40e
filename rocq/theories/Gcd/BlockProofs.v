(** Generic facts about block lists. *)
From Verif Require Import Base.Prelude Gcd.Blocks Gcd.Spec.
Local Open Scope N_scope.

Lemma exists_last_or_nil : forall {A} (l : list A), l = [] \/ exists l0 x, l = l0 ++ [x].
Proof.
  intros A l. destruct l as [|y r]; [left; reflexivity|right].
  destruct (@exists_last A (y :: r)) as (l0 & x & H); [discriminate|]. eauto.
Qed.

Section S.
Context {St : Type} (same : St -> St -> bool).
Hypothesis same_spec : forall a b, same a b = true <-> a = b.
Notation bl := (list (block St)).

Definition below (k : N) (l : bl) := Forall (fun b => b_base b < k) l.
Definition above (k : N) (l : bl) := Forall (fun b => k < b_base b) l.

Lemma tiles_le : forall (l : bl) lo hi, tiles lo hi l -> lo <= hi.
Proof.
  induction l as [|b r IH]; cbn [tiles]; intros lo hi H; [lia|].
  destruct H as (H1 & H2 & H3). apply IH in H3. unfold b_end in *. lia.
Qed.

Lemma tiles_app : forall (l1 l2 : bl) lo hi,
  tiles lo hi (l1 ++ l2) <-> exists m, tiles lo m l1 /\ tiles m hi l2.
Proof.
  induction l1 as [|b r IH]; cbn [tiles app]; intros l2 lo hi.
  - split; [intros H; exists lo; auto|intros (m & -> & H); auto].
  - rewrite IH. split.
    + intros (A & B & m & C & D). exists m. auto.
    + intros (m & (A & B & C) & D). repeat split; auto. exists m. auto.
Qed.

Lemma tiles_below : forall (l : bl) lo hi, tiles lo hi l -> below hi l.
Proof.
  induction l as [|b r IH]; cbn [tiles]; intros lo hi H; [constructor|].
  destruct H as (H1 & H2 & H3). pose proof (tiles_le _ _ _ H3).
  constructor; [unfold b_end in *; lia|]. eapply IH; eauto.
Qed.

Lemma tiles_above : forall (l : bl) lo hi k, tiles lo hi l -> k < lo -> above k l.
Proof.
  induction l as [|b r IH]; cbn [tiles]; intros lo hi k H Hk; [constructor|].
  destruct H as (H1 & H2 & H3).
  constructor; [lia|]. eapply IH; eauto. unfold b_end. lia.
Qed.

Lemma tiles_mid : forall (pre : bl) b post lo hi,
  tiles lo hi (pre ++ b :: post) <->
  tiles lo (b_base b) pre /\ 0 < b_len b /\ tiles (b_end b) hi post.
Proof.
  intros. rewrite tiles_app. cbn [tiles]. split.
  - intros (m & A & B & C & D). subst m. auto.
  - intros (A & B & C). exists (b_base b). auto.
Qed.

Lemma lookup_mid : forall (pre : bl) b post, below (b_base b) pre -> lookup (pre ++ b :: post) (b_base b) = Some b.
Proof.
  induction pre as [|x r IH]; cbn [app lookup]; intros b post H.
  - now rewrite N.eqb_refl.
  - inversion H; subst. destruct (N.eqb_spec (b_base x) (b_base b)); [lia|]. auto.
Qed.

Lemma update_mid : forall (pre : bl) b post nb, below (b_base b) pre ->
  update (pre ++ b :: post) (b_base b) nb = pre ++ nb :: post.
Proof.
  induction pre as [|x r IH]; cbn [app update]; intros b post nb H.
  - now rewrite N.eqb_refl.
  - inversion H; subst. destruct (N.eqb_spec (b_base x) (b_base b)); [lia|]. now rewrite IH.
Qed.

Lemma delete_mid : forall (pre : bl) b post, below (b_base b) pre ->
  c_delete (pre ++ b :: post) (b_base b) = pre ++ post.
Proof.
  induction pre as [|x r IH]; cbn [app c_delete]; intros b post H.
  - now rewrite N.eqb_refl.
  - inversion H; subst. destruct (N.eqb_spec (b_base x) (b_base b)); [lia|]. now rewrite IH.
Qed.

Lemma insert_mid : forall (pre : bl) post nb, below (b_base nb) pre -> above (b_base nb) post ->
  insert (pre ++ post) nb = Some (pre ++ nb :: post).
Proof.
  induction pre as [|x r IH]; cbn [app insert]; intros post nb H1 H2.
  - destruct post as [|p q]; cbn [insert]; [reflexivity|]. inversion H2; subst.
    destruct (N.ltb_spec (b_base nb) (b_base p)); [reflexivity|lia].
  - inversion H1; subst.
    destruct (N.ltb_spec (b_base nb) (b_base x)); [lia|].
    destruct (N.eqb_spec (b_base nb) (b_base x)); [lia|]. now rewrite IH.
Qed.

Lemma next_key_mid : forall (pre : bl) b post, below (b_base b) pre -> above (b_base b) post ->
  next_key (pre ++ b :: post) (b_base b) = match post with [] => None | n :: _ => Some (b_base n) end.
Proof.
  induction pre as [|x r IH]; cbn [app next_key]; intros b post H1 H2.
  - rewrite N.ltb_irrefl. destruct post as [|n q]; [reflexivity|]. cbn [next_key]. inversion H2; subst.
    destruct (N.ltb_spec (b_base b) (b_base n)); [reflexivity|lia].
  - inversion H1; subst. destruct (N.ltb_spec (b_base b) (b_base x)); [lia|]. auto.
Qed.

Lemma prev_key_above : forall (l : bl) k, above k l -> prev_key l k = None.
Proof.
  destruct l as [|x r]; intros k H; [reflexivity|]. cbn [prev_key]. inversion H; subst.
  destruct (N.ltb_spec (b_base x) k); [lia|reflexivity].
Qed.

Lemma prev_key_mid : forall (pre : bl) p b post, below (b_base b) (pre ++ [p]) -> above (b_base b) post ->
  prev_key (pre ++ p :: b :: post) (b_base b) = Some (b_base p).
Proof.
  induction pre as [|x r IH]; cbn [app]; intros p b post H1 H2.
  - inversion H1; subst. cbn [prev_key].
    destruct (N.ltb_spec (b_base p) (b_base b)); [|lia].
    rewrite N.ltb_irrefl. reflexivity.
  - inversion H1; subst. cbn [prev_key]. destruct (N.ltb_spec (b_base x) (b_base b)); [|lia].
    now rewrite IH.
Qed.

Lemma prev_key_first : forall (b : block St) post, prev_key (b :: post) (b_base b) = None.
Proof. intros. cbn [prev_key]. now rewrite N.ltb_irrefl. Qed.

Lemma closest_spec : forall (l : bl) lo hi a, tiles lo hi l ->
  match closest l a with
  | None => a < lo \/ l = []
  | Some k => exists pre b post, l = pre ++ b :: post /\ b_base b = k /\ k <= a /\ above a post
  end.
Proof.
  induction l as [|x r IH]; cbn [closest]; intros lo hi a H; [auto|].
  cbn [tiles] in H. destruct H as (H1 & H2 & H3).
  destruct (N.leb_spec (b_base x) a); [|left; lia].
  specialize (IH _ _ a H3). destruct (closest r a) as [k|].
  - destruct IH as (pre & b & post & -> & Hb & Hk & Ha). exists (x :: pre), b, post. auto.
  - exists [], x, r. split; [reflexivity|]. split; [reflexivity|]. split; [lia|].
    destruct IH as [IH| ->]; [|constructor]. eapply tiles_above; eauto.
Qed.

(** In a tiling of [lo,hi), the closest block to an address inside contains it. *)
Lemma closest_in : forall (l : bl) lo hi a, tiles lo hi l -> lo <= a < hi ->
  exists pre b post, l = pre ++ b :: post /\ closest l a = Some (b_base b) /\
    b_base b <= a < b_end b.
Proof.
  induction l as [|x r IH]; cbn [closest tiles]; intros lo hi a H Ha; [lia|].
  destruct H as (H1 & H2 & H3).
  destruct (N.leb_spec (b_base x) a); [|lia].
  destruct (N.lt_ge_cases a (b_end x)) as [Hlt|Hge].
  - exists [], x, r. split; [reflexivity|]. split; [|lia].
    pose proof (closest_spec _ _ _ a H3) as C. destruct (closest r a) as [k|]; [|reflexivity].
    destruct C as (pre & b & post & -> & <- & Hk & _).
    apply tiles_mid in H3. destruct H3 as (H3 & _). apply tiles_le in H3. lia.
  - destruct (IH _ _ a H3) as (pre & b & post & -> & -> & Hb); [lia|].
    exists (x :: pre), b, post. auto.
Qed.

(** ** state_at *)
Lemma state_at_app : forall (l1 l2 : bl) a,
  state_at (l1 ++ l2) a = match state_at l1 a with Some s => Some s | None => state_at l2 a end.
Proof.
  induction l1 as [|x r IH]; cbn [app state_at]; intros l2 a; [reflexivity|].
  destruct ((b_base x <=? a) && (a <? b_end x)); [reflexivity|]. apply IH.
Qed.

Lemma state_at_out : forall (l : bl) lo hi a, tiles lo hi l -> ~ (lo <= a < hi) -> state_at l a = None.
Proof.
  induction l as [|x r IH]; cbn [tiles state_at]; intros lo hi a H Ha; [reflexivity|].
  destruct H as (H1 & H2 & H3). pose proof (tiles_le _ _ _ H3). unfold b_end in *.
  destruct ((b_base x <=? a) && (a <? b_base x + b_len x)) eqn:E; [lia|].
  eapply IH; eauto. lia.
Qed.

Lemma state_at_in : forall (l : bl) lo hi a, tiles lo hi l -> lo <= a < hi -> exists s, state_at l a = Some s.
Proof.
  induction l as [|x r IH]; cbn [tiles state_at]; intros lo hi a H Ha; [lia|].
  destruct H as (H1 & H2 & H3).
  destruct ((b_base x <=? a) && (a <? b_end x)) eqn:E; [eauto|].
  eapply IH; eauto. lia.
Qed.

Lemma state_at_mid : forall (pre : bl) b post lo hi a, tiles lo hi (pre ++ b :: post) ->
  b_base b <= a < b_end b -> state_at (pre ++ b :: post) a = Some (b_st b).
Proof.
  intros pre b post lo hi a H Ha. apply tiles_mid in H. destruct H as (H1 & H2 & H3).
  rewrite state_at_app, (state_at_out _ _ _ _ H1) by lia. cbn [state_at].
  destruct ((b_base b <=? a) && (a <? b_end b)) eqn:E; [reflexivity|lia].
Qed.

Lemma state_at_ext_mid : forall (pre m1 m2 post : bl) a,
  state_at m1 a = state_at m2 a -> state_at (pre ++ m1 ++ post) a = state_at (pre ++ m2 ++ post) a.
Proof. intros. rewrite !state_at_app, H. reflexivity. Qed.

(** ** merged *)
Lemma merged_app : forall (l1 l2 : bl), merged (l1 ++ l2) -> merged l1 /\ merged l2.
Proof.
  induction l1 as [|x r IH]; intros l2 H; [cbn; auto|].
  destruct r as [|y r'].
  - cbn [app] in H. split; [exact I|]. destruct l2; [exact I|]. apply H.
  - cbn [app merged] in *. destruct H as (A & B). apply (IH l2) in B. cbn in B. tauto.
Qed.

Lemma merged_join : forall (l1 : bl) b l2, merged (l1 ++ [b]) -> merged (b :: l2) -> merged (l1 ++ b :: l2).
Proof.
  induction l1 as [|x r IH]; intros b l2 H1 H2; [exact H2|].
  destruct r as [|y r'].
  - cbn [app merged] in *. tauto.
  - cbn [app merged] in *. destruct H1 as (A & B). split; [exact A|]. apply (IH b l2); auto.
Qed.

Lemma merged_tail : forall (b : block St) l, merged (b :: l) -> merged l.
Proof. intros b l H. destruct l; [exact I|]. apply H. Qed.

(** Changing only base/length of a block keeps [merged]. *)
Lemma merged_st : forall (pre : bl) b b' post, b_st b = b_st b' ->
  merged (pre ++ b :: post) -> merged (pre ++ b' :: post).
Proof.
  induction pre as [|x r IH]; intros b b' post E H.
  - cbn [app] in *. destruct post as [|p q]; [exact I|]. cbn [merged] in *. rewrite <- E. exact H.
  - destruct r as [|y r'].
    + cbn [app] in *. cbn [merged] in H. destruct H as (A & B).
      apply (IH _ _ _ E) in B. cbn [app] in B. split; [congruence|exact B].
    + cbn [app merged] in *. destruct H as (A & B). split; [exact A|]. apply (IH b b' post E B).
Qed.

Lemma same_refl : forall s, same s s = true.
Proof. intros. now apply same_spec. Qed.

Lemma same_false : forall a b, same a b = false -> a <> b.
Proof. intros a b H E. apply same_spec in E. congruence. Qed.

(** ** merge_neighbours *)
Lemma merge_next_fact : forall (m n : block St),
  b_st m = b_st n -> b_end m = b_base n ->
  merge same m n = (mkBlock (b_base m) (b_len m + b_len n) (b_st m), true).
Proof.
  intros m n H1 H2. unfold merge. rewrite H1, same_refl, H2, N.eqb_refl. reflexivity.
Qed.

Lemma merge_not : forall (m n : block St), b_st m <> b_st n -> merge same m n = (m, false).
Proof.
  intros m n H. unfold merge. destruct (same (b_st m) (b_st n)) eqn:E; [|reflexivity].
  apply same_spec in E. contradiction.
Qed.

Lemma st_dec : forall a b : St, {a = b} + {a <> b}.
Proof.
  intros a b. destruct (same a b) eqn:E; [left; now apply same_spec|right; now apply same_false].
Qed.

Lemma state_at_merge2 : forall (m n : block St) a, b_st m = b_st n -> b_end m = b_base n ->
  state_at [mkBlock (b_base m) (b_len m + b_len n) (b_st m)] a = state_at [m; n] a.
Proof.
  intros m n a H1 H2. cbn [state_at]. unfold b_end in *. cbn [b_base b_len b_st].
  destruct ((b_base m <=? a) && (a <? b_base m + (b_len m + b_len n))) eqn:E;
  destruct ((b_base m <=? a) && (a <? b_base m + b_len m)) eqn:E1; try lia; try reflexivity;
  destruct ((b_base n <=? a) && (a <? b_base n + b_len n)) eqn:E2; try lia; try reflexivity.
  now rewrite H1.
Qed.

Lemma merge_neighbours_ok : forall (pre : bl) m post lo hi,
  tiles lo hi (pre ++ m :: post) -> merged pre -> merged post ->
  exists k l', merge_neighbours same (pre ++ m :: post) (b_base m) = Ok (k, l') /\
    tiles lo hi l' /\ merged l' /\ (forall a, state_at l' a = state_at (pre ++ m :: post) a) /\
    (length l' <= length (pre ++ m :: post))%nat /\
    (exists b, In b l' /\ b_base b = k /\ b_base b <= b_base m /\ b_end m <= b_end b /\ b_st b = b_st m).
Proof.
  intros pre m post lo hi HT Mpre Mpost.
  (* first half: the next block *)
  assert (Step1 : exists m' post',
    (match next_key (pre ++ m :: post) (b_base m) with
     | None => Ok (pre ++ m :: post)
     | Some nk =>
        match lookup (pre ++ m :: post) nk, lookup (pre ++ m :: post) (b_base m) with
        | Some next, Some b =>
            let (b', mg) := merge same b next in
            if mg then Ok (c_delete (update (pre ++ m :: post) (b_base m) b') nk) else Ok (pre ++ m :: post)
        | _, _ => Panic
        end
     end) = @Ok ierr _ (pre ++ m' :: post') /\
    b_base m' = b_base m /\ b_st m' = b_st m /\ b_end m <= b_end m' /\
    tiles lo hi (pre ++ m' :: post') /\ merged (m' :: post') /\
    (forall a, state_at (pre ++ m' :: post') a = state_at (pre ++ m :: post) a) /\
    (length post' <= length post)%nat).
  { pose proof HT as HT0. apply tiles_mid in HT0. destruct HT0 as (T1 & T2 & T3).
    pose proof (tiles_below _ _ _ T1) as Bpre.
    assert (Apost : above (b_base m) post) by (eapply tiles_above; [exact T3|unfold b_end; lia]).
    rewrite (next_key_mid pre m post Bpre Apost).
    destruct post as [|n q].
    - exists m, []. repeat split; auto; lia.
    - assert (Bn : below (b_base n) (pre ++ [m])).
      { cbn [tiles] in T3. destruct T3 as (T3 & _). apply Forall_app. split.
        - eapply Forall_impl; [|exact Bpre]. cbn. intros; unfold b_end in *; lia.
        - constructor; [unfold b_end in *; lia|constructor]. }
      replace (lookup (pre ++ m :: n :: q) (b_base n)) with (Some n).
      2: { change (pre ++ m :: n :: q) with (pre ++ [m] ++ n :: q). rewrite app_assoc.
           now rewrite lookup_mid. }
      rewrite (lookup_mid pre m (n :: q) Bpre).
      cbn [tiles] in T3. destruct T3 as (T3 & T4 & T5).
      destruct (st_dec (b_st m) (b_st n)) as [E|E].
      + rewrite merge_next_fact by auto.
        rewrite update_mid by auto.
        set (m' := mkBlock (b_base m) (b_len m + b_len n) (b_st m)).
        exists m', q. split.
        { f_equal. change (pre ++ m' :: n :: q) with (pre ++ [m'] ++ n :: q). rewrite app_assoc.
          rewrite delete_mid.
          - now rewrite <- app_assoc.
          - apply Forall_app in Bn. destruct Bn as (Bn1 & Bn2). apply Forall_app. split; [exact Bn1|].
            inversion Bn2; subst. constructor; [exact H1|constructor]. }
        split; [reflexivity|]. split; [reflexivity|].
        split; [unfold m', b_end; cbn; lia|].
        split.
        { apply tiles_mid. cbn. split; [exact T1|]. split; [lia|].
          replace (b_end m') with (b_end n); [exact T5|unfold m', b_end in *; cbn; lia]. }
        split.
        { apply (merged_st [] n m'); [cbn; congruence|exact Mpost]. }
        split; [|cbn; lia].
        intros a. change (pre ++ m' :: q) with (pre ++ [m'] ++ q).
        change (pre ++ m :: n :: q) with (pre ++ [m; n] ++ q).
        apply state_at_ext_mid. apply state_at_merge2; auto.
      + rewrite merge_not by exact E. exists m, (n :: q). split; [reflexivity|]. split; [reflexivity|].
        split; [reflexivity|]. split; [lia|]. split; [exact HT|].
        split; [split; [exact E|exact Mpost]|]. split; [reflexivity|lia]. }
  destruct Step1 as (m' & post' & E1 & Eb & Es & Ee & HT' & Mm & HS & HL).
  unfold merge_neighbours. rewrite E1. cbn [bind].
  pose proof HT' as HT0. apply tiles_mid in HT0. destruct HT0 as (T1 & T2 & T3).
  pose proof (tiles_below _ _ _ T1) as Bpre. rewrite <- Eb.
  assert (Apost : above (b_base m') post') by (eapply tiles_above; [exact T3|unfold b_end; lia]).
  assert (Lle : (length (pre ++ m' :: post') <= length (pre ++ m :: post))%nat).
  { rewrite !app_length. cbn [length]. lia. }
  destruct (exists_last_or_nil pre) as [-> | (p0 & p & ->)].
  - cbn [app]. rewrite prev_key_first. exists (b_base m'), (m' :: post').
    split; [reflexivity|]. split; [exact HT'|]. split; [exact Mm|]. split; [exact HS|].
    split; [cbn in *; lia|]. exists m'. split; [left; reflexivity|].
    split; [reflexivity|]. split; [lia|]. auto.
  - setoid_rewrite <- app_assoc in HS. rewrite <- !app_assoc. rewrite <- !app_assoc in HT', Lle. cbn [app] in *.
    rewrite prev_key_mid by auto.
    replace (lookup (p0 ++ p :: m' :: post') (b_base m')) with (Some m').
    2: { change (p0 ++ p :: m' :: post') with (p0 ++ [p] ++ m' :: post'). rewrite app_assoc.
         now rewrite lookup_mid. }
    apply tiles_app in T1. destruct T1 as (mid & T1a & T1b). cbn [tiles] in T1b.
    destruct T1b as (Tq & Tp & Tpe). subst mid.
    pose proof (tiles_below _ _ _ T1a) as Bp0.
    rewrite (lookup_mid p0 p (m' :: post') Bp0).
    destruct (st_dec (b_st p) (b_st m')) as [E|E].
    + rewrite merge_next_fact by auto.
      rewrite update_mid by auto.
      set (p' := mkBlock (b_base p) (b_len p + b_len m') (b_st p)).
      exists (b_base p), (p0 ++ p' :: post').
      split.
      { f_equal. f_equal. change (p0 ++ p' :: m' :: post') with (p0 ++ [p'] ++ m' :: post'). rewrite app_assoc.
        rewrite delete_mid.
        - now rewrite <- app_assoc.
        - apply Forall_app in Bpre. destruct Bpre as (B1 & B2). apply Forall_app. split; [exact B1|].
          inversion B2; subst. constructor; [assumption|constructor]. }
      split.
      { apply tiles_mid. cbn. split; [exact T1a|]. split; [lia|].
        replace (b_end p') with (b_end m'); [exact T3|unfold p', b_end in *; cbn; lia]. }
      split.
      { apply merged_join.
        - apply (merged_st p0 p p' []); [reflexivity|]. exact Mpre.
        - apply (merged_st [] m' p'); [cbn; congruence|exact Mm]. }
      split.
      { intros a. rewrite <- HS. change (p0 ++ p' :: post') with (p0 ++ [p'] ++ post').
        change (p0 ++ p :: m' :: post') with (p0 ++ [p; m'] ++ post').
        apply state_at_ext_mid. apply state_at_merge2; auto. }
      split; [rewrite !app_length in *; cbn [length] in *; lia|].
      exists p'. split; [apply in_or_app; right; left; reflexivity|].
      split; [reflexivity|]. unfold p', b_end in *. cbn. split; [lia|]. split; [lia|]. congruence.
    + rewrite merge_not by exact E.
      exists (b_base m'), (p0 ++ p :: m' :: post').
      split; [reflexivity|]. split; [exact HT'|].
      split.
      { apply merged_join; [exact Mpre|]. split; [exact E|exact Mm]. }
      split; [exact HS|]. split; [rewrite <- app_assoc in Lle; exact Lle|].
      exists m'. split; [apply in_or_app; right; right; left; reflexivity|].
      split; [reflexivity|]. split; [lia|]. auto.
Qed.

(** ** sst_at *)
Definition fits (b : block St) (base len : N) : Prop :=
  b_base b <= base /\ 0 < len /\ base + len <= b_end b.

Definition clen (l : bl) : N := N.of_nat (length l).

Lemma clen_mid : forall (p : bl) x q, clen (p ++ x :: q) = clen p + 1 + clen q.
Proof. intros. unfold clen. rewrite app_length. cbn [length]. lia. Qed.

Lemma state_at_one : forall (b : block St) a,
  state_at [b] a = if (b_base b <=? a) && (a <? b_end b) then Some (b_st b) else None.
Proof. reflexivity. Qed.

Definition sst_post (dbg : bool) (cap lo hi : N) (l : bl) (b : block St) (base len : N)
  (tr : St -> option St) (r : res ierr N) (l' : bl) : Prop :=
  match r with
  | Ok k => fits b base len /\ tiles lo hi l' /\ merged l' /\ clen l' <= clen l + 2 /\
            (clen l <= cap -> clen l' <= cap) /\
            (exists s', tr (b_st b) = Some s' /\ range_changed l l' base len (b_st b) s' /\
               exists b', In b' l' /\ b_base b' = k /\ k <= base /\ base + len <= b_end b' /\ b_st b' = s')
  | Err InvalidStateTransition => l' = l /\ fits b base len /\ tr (b_st b) = None
  | Err BlockOutsideRange => l' = l /\ ~ fits b base len
  | Err OutOfSpace => l' = l /\ fits b base len /\ tr (b_st b) <> None /\ cap < clen l + 2
  | Err AlreadyExists => False
  | Panic => dbg = true /\ two64 <= base + len
  end.

Lemma range_changed_mid : forall (pre post L R : bl) b base len s',
  fits b base len ->
  (forall a, a < base -> state_at L a = state_at [b] a) ->
  (forall a, base <= a -> state_at L a = None) ->
  (forall a, base + len <= a -> state_at R a = state_at [b] a) ->
  (forall a, a < base + len -> state_at R a = None) ->
  forall lo hi, tiles lo hi (pre ++ b :: post) ->
  range_changed (pre ++ b :: post) (pre ++ L ++ mkBlock base len s' :: R ++ post) base len (b_st b) s'.
Proof.
  intros pre post L R b base len s' (F1 & F2 & F3) HL1 HL2 HR1 HR2 lo hi HT. split.
  - intros a (A1 & A2). split.
    + eapply state_at_mid; eauto. lia.
    + apply tiles_mid in HT. destruct HT as (T1 & _).
      rewrite state_at_app, (state_at_out _ _ _ _ T1) by lia.
      rewrite state_at_app, HL2 by lia. cbn [state_at]. unfold b_end; cbn [b_base b_len b_st].
      destruct ((base <=? a) && (a <? base + len)) eqn:E; [reflexivity|lia].
  - intros a Ha. unfold in_range in Ha.
    rewrite !state_at_app. destruct (state_at pre a); [reflexivity|].
    change (mkBlock base len s' :: R ++ post) with ([mkBlock base len s'] ++ R ++ post).
    change (b :: post) with ([b] ++ post). rewrite !state_at_app.
    destruct (N.lt_ge_cases a base) as [Hlt|Hge].
    + rewrite HL1 by lia. destruct (state_at [b] a) eqn:E; [reflexivity|].
      rewrite HR2 by lia. cbn [state_at]. unfold b_end; cbn [b_base b_len b_st].
      destruct ((base <=? a) && (a <? base + len)) eqn:E2; [lia|reflexivity].
    + rewrite HL2 by lia. rewrite HR1 by lia. cbn [state_at]. unfold b_end; cbn [b_base b_len b_st].
      destruct ((base <=? a) && (a <? base + len)) eqn:E2; [lia|reflexivity].
Qed.

Lemma range_changed_ext : forall (l l1 l2 : bl) base len s s',
  range_changed l l1 base len s s' -> (forall a, state_at l2 a = state_at l1 a) ->
  range_changed l l2 base len s s'.
Proof.
  intros l l1 l2 base len s s' (A & B) H. split; intros a Ha.
  - rewrite H. auto.
  - rewrite H. auto.
Qed.

(** Finish of every successful branch. *)
Lemma sst_finish : forall dbg cap lo hi (pre post L R : bl) b base len tr s',
  tiles lo hi (pre ++ b :: post) -> merged (pre ++ b :: post) ->
  fits b base len -> tr (b_st b) = Some s' ->
  tiles (b_base b) base L -> tiles (base + len) (b_end b) R ->
  Forall (fun x => b_st x = b_st b) L -> Forall (fun x => b_st x = b_st b) R ->
  (length L <= 1)%nat -> (length R <= 1)%nat ->
  (clen (pre ++ b :: post) <= cap -> clen ((pre ++ L) ++ mkBlock base len s' :: R ++ post) <= cap) ->
  exists k l', merge_neighbours same ((pre ++ L) ++ mkBlock base len s' :: R ++ post) base = Ok (k, l') /\
    sst_post dbg cap lo hi (pre ++ b :: post) b base len tr (Ok k) l'.
Proof.
  intros dbg cap lo hi pre post L R b base len tr s' HT HM HF Htr TL TR SL SR LL LR Hcap.
  pose proof HT as HT0. apply tiles_mid in HT0. destruct HT0 as (T1 & T2 & T3).
  set (m := mkBlock base len s').
  assert (TT : tiles lo hi ((pre ++ L) ++ m :: R ++ post)).
  { apply tiles_mid. cbn. destruct HF as (F1 & F2 & F3). split; [apply tiles_app; eauto|]. split; [lia|].
    apply tiles_app. eauto. }
  assert (M1 : merged (pre ++ L)).
  { destruct L as [|x [|? ?]]; cbn in LL; try lia.
    - rewrite app_nil_r. now apply merged_app in HM.
    - inversion SL; subst. apply (merged_st pre b x []); [auto|].
      change (pre ++ b :: post) with (pre ++ [b] ++ post) in HM. rewrite app_assoc in HM.
      now apply merged_app in HM. }
  assert (M2 : merged (R ++ post)).
  { destruct R as [|x [|? ?]]; cbn in LR; try lia.
    - apply merged_app in HM. destruct HM as (_ & HM). cbn. eapply merged_tail; eauto.
    - inversion SR; subst. apply (merged_st [] b x post); [auto|]. now apply merged_app in HM. }
  destruct (merge_neighbours_ok (pre ++ L) m (R ++ post) lo hi TT M1 M2)
    as (k & l' & E & A1 & A2 & A3 & A4 & b' & B1 & B2 & B3 & B4 & B5).
  exists k, l'. split; [exact E|]. cbn [sst_post].
  split; [exact HF|]. split; [exact A1|]. split; [exact A2|].
  split.
  { unfold clen. rewrite !app_length in *. cbn [length] in *. rewrite ?app_length in *. lia. }
  split.
  { intros Hc. specialize (Hcap Hc). unfold clen in *. fold m in Hcap. lia. }
  exists s'. split; [exact Htr|]. split.
  - eapply range_changed_ext; [|exact A3]. rewrite <- app_assoc. unfold m.
    destruct HF as (F1 & F2 & F3).
    assert (XL : forall a, state_at L a = if (b_base b <=? a) && (a <? base) then Some (b_st b) else None).
    { intros a. destruct L as [|x [|? ?]]; cbn in LL; try lia.
      - cbn in *. destruct ((b_base b <=? a) && (a <? base)) eqn:E0; [lia|reflexivity].
      - cbn [tiles] in TL. destruct TL as (X1 & X2 & X3). inversion SL; subst.
        rewrite state_at_one, H1, X1. reflexivity. }
    assert (XR : forall a, state_at R a = if (base + len <=? a) && (a <? b_end b) then Some (b_st b) else None).
    { intros a. destruct R as [|x [|? ?]]; cbn in LR; try lia.
      - cbn in *. destruct ((base + len <=? a) && (a <? b_end b)) eqn:E0; [lia|reflexivity].
      - cbn [tiles] in TR. destruct TR as (X1 & X2 & X3). inversion SR; subst.
        rewrite state_at_one, H1, X1, X3. reflexivity. }
    eapply range_changed_mid; [split; eauto|..|exact HT]; intros a Ha; rewrite ?XL, ?XR, ?state_at_one;
    repeat match goal with |- context [if ?c then _ else _] => destruct c eqn:? end; try reflexivity; lia.
  - exists b'. unfold m, b_end in B3, B4, B5. cbn in B3, B4, B5. repeat split; auto; lia.
Qed.

Lemma sst_at_spec : forall dbg cap lo hi (pre : bl) b post base len tr,
  tiles lo hi (pre ++ b :: post) -> merged (pre ++ b :: post) ->
  base < two64 -> len < two64 -> hi < two64 ->
  let (r, l') := sst_at same dbg cap (pre ++ b :: post) (b_base b) base len tr in
  sst_post dbg cap lo hi (pre ++ b :: post) b base len tr r l'.
Proof.
  intros dbg cap lo hi pre b post base len tr HT HM Hb Hl Hhi.
  pose proof HT as HT0. apply tiles_mid in HT0. destruct HT0 as (T1 & T2 & T3).
  pose proof (tiles_below _ _ _ T1) as Bpre.
  pose proof (tiles_le _ _ _ T3) as Hend.
  assert (Upd : forall nb, update (pre ++ b :: post) (b_base b) nb = pre ++ nb :: post)
    by (intros; now apply update_mid).
  unfold sst_at. rewrite lookup_mid by exact Bpre.
  unfold split_state_transition, split, uadd.
  destruct (N.ltb_spec (base + len) two64) as [Hlt|Hge].
  2: { destruct dbg; cbn [bind].
       - cbn [sst_post]. split; [reflexivity|lia].
       - set (e := (base + len) mod two64).
         assert (He : e < base).
         { unfold e. rewrite <- (N.mod_unique (base + len) two64 1 (base + len - two64)); lia. }
         clearbody e.
         destruct ((b_base b <=? base) && (base <? e) && (e <=? b_end b)) eqn:E; [exfalso; lia|]. cbn [negb].
         cbn [sst_post]. rewrite Upd. split; [reflexivity|]. unfold fits.
         intros (F1 & F2 & F3). lia. }
  cbn [bind].
  destruct (negb ((b_base b <=? base) && (base <? base + len) && (base + len <=? b_end b))) eqn:E1.
  { cbn [sst_post]. rewrite Upd. split; [reflexivity|]. unfold fits. lia. }
  assert (HF : fits b base len) by (unfold fits; lia).
  pose proof HF as (F1 & F2 & F3). unfold b_end in F3.
  destruct ((b_base b =? base) && (base + len =? b_end b)) eqn:E2.
  { (* Same *)
    destruct (tr (b_st b)) as [s'|] eqn:Etr.
    2: { cbn [sst_post]. rewrite Upd. auto. }
    rewrite Upd. cbn [bind].
    destruct (sst_finish dbg cap lo hi pre post [] [] b base len tr s') as (k & l' & Em & Hp); auto.
    - cbn; lia.
    - cbn; lia.
    - rewrite app_nil_r. cbn [app]. rewrite !clen_mid. auto.
    - rewrite app_nil_r in Em. cbn [app] in Em.
      assert (Eq1 : set_st b s' = mkBlock base len s').
      { unfold set_st. f_equal; unfold b_end in *; lia. }
      rewrite Eq1. replace (b_base b) with base by lia. rewrite Em. exact Hp. }
  destruct ((b_base b =? base) && (base + len <? b_end b)) eqn:E3.
  { (* Before *)
    cbn [b_st b_base b_len].
    destruct (tr (b_st b)) as [s'|] eqn:Etr.
    2: { cbn [sst_post]. rewrite merge_next_fact by reflexivity. cbn [fst b_base b_len b_st]. rewrite Upd.
         split; [|auto]. f_equal. f_equal. destruct b as [bb bl0 bs]. cbn in *. unfold b_end in *; cbn in *.
         f_equal; lia. }
    unfold set_st; cbn [b_base b_len b_st]. rewrite Upd.
    set (m := mkBlock base len s'). set (nx := mkBlock (base + len) (b_len b - len) (b_st b)).
    unfold c_add.
    fold (clen (pre ++ m :: post)). rewrite clen_mid.
    destruct (N.eqb_spec (clen pre + 1 + clen post) cap) as [Ec|Ec].
    - cbn [bind sst_post]. replace (b_base b) with (b_base m) by (cbn; lia).
      rewrite update_mid by (cbn; replace base with (b_base b) by lia; exact Bpre).
      split; [reflexivity|]. split; [exact HF|]. split; [congruence|]. rewrite clen_mid. lia.
    - assert (In1 : insert (pre ++ m :: post) nx = Some (pre ++ m :: nx :: post)).
      { change (pre ++ m :: post) with (pre ++ [m] ++ post). rewrite app_assoc.
        rewrite insert_mid.
        - now rewrite <- app_assoc.
        - apply Forall_app. split.
          + eapply Forall_impl; [|exact Bpre]. cbn. intros; lia.
          + constructor; [cbn; lia|constructor].
        - eapply tiles_above; [exact T3|]. cbn. lia. }
      rewrite In1. cbn [bind].
      destruct (sst_finish dbg cap lo hi pre post [] [nx] b base len tr s') as (k & l' & Em & Hp); auto.
      + cbn; lia.
      + cbn. unfold b_end; cbn. unfold b_end in *. lia.
      + rewrite app_nil_r. cbn [app]. rewrite !clen_mid. unfold clen in *. cbn [length]. lia.
      + rewrite app_nil_r in Em. cbn [app] in Em. fold m in Em.
        replace (b_base b) with base by lia. rewrite Em. exact Hp. }
  destruct ((b_base b <? base) && (base + len =? b_end b)) eqn:E4.
  { (* After *)
    cbn [b_st b_base b_len].
    destruct (tr (b_st b)) as [s'|] eqn:Etr.
    2: { cbn [sst_post]. rewrite merge_next_fact by (try reflexivity; unfold b_end in *; cbn; lia).
         cbn [fst b_base b_len b_st]. rewrite Upd.
         split; [|auto]. f_equal. f_equal. destruct b as [bb bl0 bs]. cbn in *. unfold b_end in *; cbn in *.
         f_equal; lia. }
    unfold set_st; cbn [b_base b_len b_st]. rewrite Upd.
    set (m := mkBlock base len s'). set (pv := mkBlock (b_base b) (b_len b - len) (b_st b)).
    unfold c_add. fold (clen (pre ++ pv :: post)). rewrite clen_mid.
    destruct (N.eqb_spec (clen pre + 1 + clen post) cap) as [Ec|Ec].
    - cbn [sst_post]. change (b_base b) with (b_base pv).
      rewrite update_mid by exact Bpre.
      split; [reflexivity|]. split; [exact HF|]. split; [congruence|]. rewrite clen_mid. lia.
    - assert (In1 : insert (pre ++ pv :: post) m = Some ((pre ++ [pv]) ++ m :: post)).
      { change (pre ++ pv :: post) with (pre ++ [pv] ++ post). rewrite app_assoc.
        rewrite insert_mid; [reflexivity| |].
        - apply Forall_app. split.
          + eapply Forall_impl; [|exact Bpre]. cbn. intros; lia.
          + constructor; [cbn; lia|constructor].
        - eapply tiles_above; [exact T3|]. cbn. lia. }
      rewrite In1. cbn [b_base].
      destruct (sst_finish dbg cap lo hi pre post [pv] [] b base len tr s') as (k & l' & Em & Hp); auto.
      + cbn. unfold b_end in *; cbn. lia.
      + cbn. lia.
      + cbn [app]. rewrite !clen_mid. unfold clen in *. cbn [length]. lia.
      + cbn [app] in Em. fold m in Em. change (b_base m) with base. rewrite Em. exact Hp. }
  destruct ((b_base b <? base) && (base + len <? b_end b)) eqn:E5.
  2: { exfalso. lia. }
  (* Middle *)
  cbn [b_st b_base b_len].
  set (pv := mkBlock (b_base b) (base - b_base b) (b_st b)).
  set (la := mkBlock (base + len) (b_end b - (base + len)) (b_st b)).
  destruct (tr (b_st b)) as [s'|] eqn:Etr.
  2: { cbn [sst_post].
       rewrite (merge_next_fact (mkBlock base len (b_st b)) la) by reflexivity. cbn [fst b_base b_len b_st].
       rewrite merge_next_fact by (try reflexivity; unfold b_end, pv, la in *; cbn; lia).
       cbn [fst b_base b_len b_st pv la]. rewrite Upd.
       split; [|auto]. f_equal. f_equal. destruct b as [bb bl0 bs]. cbn in *. unfold b_end in *; cbn in *.
       f_equal; lia. }
  unfold set_st; cbn [b_base b_len b_st]. rewrite Upd.
  set (m := mkBlock base len s').
  unfold c_add2. fold (clen (pre ++ pv :: post)). rewrite clen_mid.
  assert (HR : forall nb, update (pre ++ pv :: post) (b_base b) nb = pre ++ nb :: post).
  { intros nb. change (b_base b) with (b_base pv). apply update_mid. exact Bpre. }
  destruct (N.ltb_spec cap (clen pre + 1 + clen post + 2)) as [Ec|Ec].
  - cbn [sst_post]. rewrite HR. split; [reflexivity|]. split; [exact HF|]. split; [congruence|].
    rewrite clen_mid. lia.
  - unfold c_add. fold (clen (pre ++ pv :: post)). rewrite clen_mid.
    destruct (N.eqb_spec (clen pre + 1 + clen post) cap) as [Ec1|Ec1]; [lia|].
    assert (In1 : insert (pre ++ pv :: post) la = Some ((pre ++ [pv]) ++ la :: post)).
    { change (pre ++ pv :: post) with (pre ++ [pv] ++ post). rewrite app_assoc.
      rewrite insert_mid; [reflexivity| |].
      - apply Forall_app. split.
        + eapply Forall_impl; [|exact Bpre]. cbn. intros; lia.
        + constructor; [cbn; lia|constructor].
      - eapply tiles_above; [exact T3|]. cbn. lia. }
    rewrite In1. cbn [bind].
    fold (clen ((pre ++ [pv]) ++ la :: post)). rewrite clen_mid.
    assert (Ec2 : clen (pre ++ [pv]) = clen pre + 1) by (rewrite clen_mid; unfold clen; cbn; lia).
    rewrite Ec2.
    destruct (N.eqb_spec (clen pre + 1 + 1 + clen post) cap) as [Ec3|Ec3]; [lia|].
    assert (In2 : insert ((pre ++ [pv]) ++ la :: post) m = Some ((pre ++ [pv]) ++ m :: la :: post)).
    { apply insert_mid.
      - apply Forall_app. split.
        + eapply Forall_impl; [|exact Bpre]. cbn. intros; lia.
        + constructor; [cbn; lia|constructor].
      - constructor; [cbn; lia|]. eapply tiles_above; [exact T3|]. cbn. lia. }
    rewrite In2. cbn [b_base].
    destruct (sst_finish dbg cap lo hi pre post [pv] [la] b base len tr s') as (k & l' & Em & Hp); auto.
    + cbn. unfold b_end; cbn. lia.
    + cbn. unfold b_end; cbn. unfold b_end in *. lia.
    + intros _. cbn [app]. rewrite clen_mid, Ec2. unfold clen in *. cbn [length]. lia.
    + cbn [app] in Em. fold m in Em. change (b_base m) with base. rewrite Em. exact Hp.
Qed.

End S.
