(** The fold of [merge_blocks] over the blocks of the map. *)
From Verif Require Import Base.Prelude Gcd.Blocks Gcd.Model Gcd.Spec Gcd.BlockProofs Alloc.Model MemMap.Model MemMap.Spec.
Local Open Scope N_scope.

Definition dend (d : descr) : N := d_start d + d_pages d * 4096.
Fixpoint chain (l : list descr) : Prop :=
  match l with [] => True | d :: r => 0 < d_pages d /\ (forall e, In e r -> dend d <= d_start e) /\ chain r end.
Fixpoint apart_rev (l : list descr) : Prop :=
  match l with
  | c :: ((d :: _) as r) => (dend d = d_start c -> d_type d <> d_type c \/ d_attr d <> d_attr c) /\ apart_rev r
  | _ => True
  end.

Lemma chain_app : forall a b, chain (a ++ b) <-> chain a /\ chain b /\ (forall d e, In d a -> In e b -> dend d <= d_start e).
Proof.
  induction a as [|x a IH]; intros b; cbn [app chain].
  { split; [intros H; split; [exact I|]; split; [exact H|intros d e []]|tauto]. }
  rewrite IH. split.
  - intros (H1 & H2 & H3 & H4 & H5). split; [|split; [exact H4|]].
    + split; [exact H1|]. split; [intros e He; apply H2, in_or_app; auto|exact H3].
    + intros d e [<-|Hd] He; [apply H2, in_or_app; auto|auto].
  - intros ((H1 & H2 & H3) & H4 & H5). split; [exact H1|]. split; [|split; [exact H3|split; [exact H4|]]].
    + intros e He. apply in_app_or in He. destruct He; [auto|apply H5; [left; reflexivity|assumption]].
    + intros d e Hd He. apply H5; [right|]; assumption.
Qed.

Definition cov (l : list descr) (t a x : N) : Prop := exists d, In d l /\ d_type d = t /\ d_attr d = a /\ covers d x.

Lemma fold_merge : forall D acc, chain (rev acc ++ D) -> apart_rev acc ->
  let R := fold_left merge_blocks D acc in
  chain (rev R) /\ apart_rev R /\ (forall t a x, cov R t a x <-> cov (acc ++ D) t a x) /\
  (forall d, In d R -> exists e, (In e acc \/ In e D) /\ d_start d = d_start e).
Proof.
  induction D as [|c D IH]; intros acc C A; cbn [fold_left]; cbv zeta.
  { rewrite !app_nil_r in *. split; [exact C|]. split; [exact A|]. split; [tauto|]. intros d Hd. exists d. auto. }
  destruct acc as [|d r].
  { cbn [merge_blocks]. specialize (IH [c]). cbn [rev app] in *. destruct (IH C I) as (R1 & R2 & R3 & R4). split; [exact R1|]. split; [exact R2|].
    split; [exact R3|]. intros x Hx. destruct (R4 x Hx) as (e & [[<-|[]]|He] & E); [exists c|exists e]; cbn; auto. }
  cbn [merge_blocks].
  destruct ((d_type d =? d_type c) && (d_attr d =? d_attr c) && (d_start d + d_pages d * 4096 =? d_start c)) eqn:M.
  - apply andb_prop in M. destruct M as (M & M3). apply andb_prop in M. destruct M as (M1 & M2). apply N.eqb_eq in M1, M2, M3.
    set (d' := Descr (d_type d) (d_start d) (d_pages d + d_pages c) (d_attr d)).
    cbn [rev] in C. rewrite <- app_assoc in C. cbn [app] in C. apply chain_app in C. destruct C as (C1 & (C2 & C3 & C4 & C5 & C6) & C7).
    assert (ED : dend d' = dend c) by (unfold dend, d'; cbn [d_start d_pages]; rewrite <- M3; lia).
    destruct (IH (d' :: r)) as (R1 & R2 & R3 & R4).
    { cbn [rev]. rewrite <- app_assoc. cbn [app]. apply chain_app. split; [exact C1|]. split.
      - cbn [chain]. split; [unfold d'; cbn [d_pages]; lia|]. split; [intros e He; rewrite ED; auto|exact C6].
      - intros x e Hx [<-|He]; [apply (C7 x d Hx); left; reflexivity|apply C7; [exact Hx|right; right; exact He]]. }
    { destruct r as [|e r]; [exact I|exact A]. }
    split; [exact R1|]. split; [exact R2|]. split.
    + intros t a x. rewrite R3. unfold cov. split.
      * intros (y & Hy & Y1 & Y2 & Y3). apply in_app_or in Hy. destruct Hy as [[<-|Hy]|Hy].
        -- unfold covers, in_range, d' in *. cbn [d_start d_pages d_type d_attr] in *. destruct (N.lt_ge_cases x (d_start c)) as [L|G].
           ++ exists d. split; [left; reflexivity|]. repeat split; auto; lia.
           ++ exists c. split; [apply in_or_app; right; left; reflexivity|]. repeat split; try congruence; lia.
        -- exists y. split; [right; apply in_or_app; left; exact Hy|auto].
        -- exists y. split; [apply in_or_app; right; right; exact Hy|auto].
      * intros (y & Hy & Y1 & Y2 & Y3). apply in_app_or in Hy. destruct Hy as [[<-|Hy]|[<-|Hy]].
        -- exists d'. split; [left; reflexivity|]. unfold d', covers, in_range in *. cbn [d_start d_pages d_type d_attr]. repeat split; auto; lia.
        -- exists y. split; [right; apply in_or_app; left; exact Hy|auto].
        -- exists d'. split; [left; reflexivity|]. unfold d', covers, in_range in *. cbn [d_start d_pages d_type d_attr]. repeat split; try congruence; lia.
        -- exists y. split; [apply in_or_app; right; exact Hy|auto].
    + intros x Hx. destruct (R4 x Hx) as (e & [[<-|He]|He] & E); [exists d|exists e|exists e]; cbn [In]; auto.
  - destruct (IH (c :: d :: r)) as (R1 & R2 & R3 & R4).
    { cbn [rev] in *. rewrite <- !app_assoc in *. exact C. }
    { split; [|exact A]. intros E. unfold dend in E. destruct (N.eqb_spec (d_type d) (d_type c)); [|left; assumption].
      destruct (N.eqb_spec (d_attr d) (d_attr c)); [|right; assumption]. apply N.eqb_eq in E. rewrite E in M. discriminate. }
    split; [exact R1|]. split; [exact R2|]. split.
    + intros t a x. rewrite R3. unfold cov. split; intros (y & Hy & Y); exists y; (split; [|exact Y]); cbn [app In] in *; rewrite in_app_iff in *; cbn [In] in *; tauto.
    + intros x Hx. destruct (R4 x Hx) as (e & [[<-|He]|He] & E); [exists c|exists e|exists e]; cbn [In] in *; tauto.
Qed.

Lemma shiftr_12 : forall n, N.shiftr n 12 = n / 4096.
Proof. intros n. apply (N.shiftr_div_pow2 n 12). Qed.

Lemma convert_some : forall act als b d, convert act als b = Some d ->
  exists t, type_of_block als (b_st b) = Some t /\ d = Descr t (b_base b) (b_len b / 4096) (attr_of_block act t (b_st b)) /\
    0 < b_len b / 4096 /\ b_base b mod 4096 = 0.
Proof.
  intros act als b d H. unfold convert in H. destruct (type_of_block als (b_st b)) as [t|]; [|discriminate]. rewrite shiftr_12 in H.
  destruct (N.eqb_spec (b_len b / 4096) 0); [discriminate|]. destruct (N.eqb_spec (b_base b mod 4096) 0); cbn [negb] in H; [|discriminate].
  injection H as <-. exists t. repeat split; auto. lia.
Qed.
Lemma convert_end : forall act als b d, convert act als b = Some d -> d_start d = b_base b /\ dend d <= b_end b.
Proof.
  intros act als b d H. apply convert_some in H. destruct H as (t & _ & -> & _). unfold dend, b_end. cbn [d_start d_pages].
  pose proof (N.mul_div_le (b_len b) 4096 ltac:(discriminate)). lia.
Qed.
Lemma in_filter_map : forall A B (f : A -> option B) l y, In y (filter_map f l) <-> exists x, In x l /\ f x = Some y.
Proof.
  induction l as [|x l IH]; intros y; cbn [filter_map In]; [split; [tauto|intros (x & [] & _)]|].
  destruct (f x) eqn:E; cbn [In]; rewrite IH; (split; [|intros (z & [<-|Hz] & Ez)]).
  - intros [<-|(z & Hz & Ez)]; eauto.
  - left. congruence.
  - right. eauto.
  - intros (z & Hz & Ez). eauto.
  - congruence.
  - eauto.
Qed.
Lemma tiles_ge : forall (l : list mblock) lo hi b, tiles lo hi l -> In b l -> lo <= b_base b /\ b_end b <= hi.
Proof.
  induction l as [|x l IH]; intros lo hi b T H; [destruct H|]. destruct H as [<-|H]; cbn [tiles] in T; destruct T as (T1 & T2 & T3).
  - split; [lia|]. clear - T3. revert T3. generalize (b_end x). induction l as [|y l IH]; intros lo T; cbn [tiles] in T; [lia|]. destruct T as (T1 & T2 & T3). apply IH in T3. unfold b_end in *. lia.
  - destruct (IH _ _ _ T3 H). unfold b_end in *. lia.
Qed.
Lemma chain_blocks : forall act als l lo hi, tiles lo hi l -> chain (filter_map (convert act als) l).
Proof.
  induction l as [|b l IH]; intros lo hi T; cbn [tiles filter_map] in *; [exact I|]. destruct T as (T1 & T2 & T3).
  destruct (convert act als b) as [d|] eqn:E; [|eapply IH; eauto]. cbn [chain]. split; [|split; [|eapply IH; eauto]].
  - apply convert_some in E. destruct E as (t & _ & -> & P & _). exact P.
  - intros e He. apply in_filter_map in He. destruct He as (c & Hc & Ec). apply convert_end in E. apply convert_end in Ec.
    destruct (tiles_ge _ _ _ _ T3 Hc). lia.
Qed.

Lemma state_of_block : forall (l : list mblock) lo hi b x, tiles lo hi l -> In b l -> b_base b <= x < b_end b -> state_at l x = Some (b_st b).
Proof.
  intros l lo hi b x T H X. apply in_split in H. destruct H as (p & q & ->). eapply state_at_mid; eauto.
Qed.
Lemma block_of_state : forall (l : list mblock) x st, state_at l x = Some st -> exists b, In b l /\ b_st b = st /\ b_base b <= x < b_end b.
Proof.
  induction l as [|b l IH]; intros x st H; cbn [state_at] in H; [discriminate|]. destruct ((b_base b <=? x) && (x <? b_end b)) eqn:E.
  - injection H as <-. exists b. apply andb_prop in E. destruct E as (E1 & E2). apply N.leb_le in E1. apply N.ltb_lt in E2. cbn. auto.
  - destruct (IH _ _ H) as (c & Hc & X). exists c. cbn. tauto.
Qed.

(** With one state per page, the blocks of a merged map begin and end on pages. *)
Lemma page_below : forall x, x mod 4096 <> 0 -> (x - 1) / 4096 = x / 4096 /\ 0 < x.
Proof.
  intros x H. pose proof (N.div_mod x 4096 ltac:(discriminate)) as D. pose proof (N.mod_lt x 4096 ltac:(discriminate)) as M.
  set (q := x / 4096) in *. set (r := x mod 4096) in *. clearbody q r. split; [|lia]. symmetry. apply (N.div_unique (x - 1) 4096 q (r - 1)); lia.
Qed.
Lemma blocks_on_pages : forall (l : list mblock) lo hi, tiles lo hi l -> merged l -> lo mod 4096 = 0 ->
  (forall x y, lo <= x -> lo <= y -> x / 4096 = y / 4096 -> state_at l x = state_at l y) ->
  forall b, In b l -> b_base b mod 4096 = 0 /\ b_end b mod 4096 = 0.
Proof.
  induction l as [|b l IH]; intros lo hi T MG LO PG c Hc; [destruct Hc|]. destruct Hc as [<-|Hc]; cbn [tiles] in T; destruct T as (T1 & T2 & T3).
  all: assert (EB : b_end b mod 4096 = 0).
  1,3: destruct (N.eq_dec (b_end b mod 4096) 0) as [|NZ]; [assumption|exfalso]; destruct (page_below _ NZ) as (PB & P0);
       assert (LE : lo <= b_end b - 1) by (unfold b_end in *; lia); assert (LE2 : lo <= b_end b) by lia; specialize (PG _ _ LE LE2 PB);
       rewrite (state_of_block (b :: l) lo hi b) in PG; [|cbn [tiles]; auto|left; reflexivity|unfold b_end in *; lia];
       cbn [state_at] in PG; rewrite (proj2 (N.ltb_ge (b_end b) (b_end b))) in PG by lia; rewrite andb_false_r in PG;
       (destruct l as [|d l]; [discriminate|]); cbn [merged] in MG; cbn [tiles] in T3; destruct T3 as (U1 & U2 & U3);
       cbn [state_at] in PG; rewrite U1 in PG; rewrite N.leb_refl in PG; rewrite (proj2 (N.ltb_lt (b_end b) (b_end d))) in PG by (unfold b_end in *; lia);
       cbn [andb] in PG; injection PG as PG; destruct MG; congruence.
  - split; [rewrite T1; exact LO|exact EB].
  - eapply (IH (b_end b) hi); eauto.
    + destruct l; [exact I|]. exact (proj2 MG).
    + intros x y X Y E. specialize (PG x y ltac:(unfold b_end in *; lia) ltac:(unfold b_end in *; lia) E). cbn [state_at] in PG.
      rewrite (proj2 (N.ltb_ge x (b_end b))) in PG by lia. rewrite (proj2 (N.ltb_ge y (b_end b))) in PG by lia. rewrite !andb_false_r in PG. exact PG.
Qed.
