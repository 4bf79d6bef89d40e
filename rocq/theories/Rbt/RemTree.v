(* Taking a node out of the tree (rbt.rs:557-597, bst.rs:550-566). *)
From Coq Require Import NArith List Bool Lia Permutation.
From Verif Require Import Base.Prelude Rbt.Model Rbt.Tree Rbt.Heap Rbt.Rot Rbt.FixAdd Rbt.FixDel Rbt.Remove
  Rbt.SwapBase Rbt.Swap1 Rbt.Swap2 Rbt.Swap3.
Import ListNotations.
Local Open Scope N_scope.

Section RemTree.
Context {D : Type}.
Notation st := (@st D).

(* Writing a parent pointer that is already there changes nothing. *)
Lemma same_parent (s : st) i v : c_parent (s_at s i) = v -> forall j, s_at (upds s i (fun k => with_parent k v)) j = s_at s j.
Proof.
  intros H j. cbn. unfold upd. destruct (N.eqb_spec j i) as [->|?]; [|reflexivity].
  rewrite <- H. now destruct (s_at s i).
Qed.
Lemma rep_ext (f f' : N -> @cell D) t par : (forall j, f' j = f j) -> rep f par t -> rep f' par t.
Proof. intros H. apply rep_frame. auto. Qed.

Lemma nodup_sub C c x t side : nodup (ino (plug C (one side c x t))) -> nodup (ino (plug C t)).
Proof.
  intros H z. specialize (H z). destruct side; cbn [one] in H; cn_in H; cn_goal; lia.
Qed.

Lemma detach_ok (s : st) side C c x t : Inv s (plug C (one side c x t)) ->
  exists s', mbind (remove01 x) (fun m => mbind (n_parent x) (fun p =>
      mbind (if is_none p then mbind (set_root m) (fun _ => o_set_parent m None) else ret tt) (fun _ => ret m))) s
    = Val (root_of t, s') /\
    Inv s' (plug C t) /\ s_at s' x = s_at s x /\ keeps s s' (ino (plug C (one side c x t))).
Proof.
  intros I. destruct (remove01_ok s side C c x t I) as (s1 & E1 & R1 & RT1 & X1 & K1).
  rewrite (st_run _ _ _ _ _ E1). clear E1.
  assert (Q : x < s_cap s /\ c_parent (s_at s x) = par_of C).
  { destruct side; cbn [one] in I; destruct (node_at _ _ _ _ _ _ I) as (A & _ & B & _); auto. }
  destruct Q as [Hx Px].
  rewrite st_parent by (rewrite (k_cap _ _ _ K1); exact Hx). rewrite X1, Px.
  pose proof (nodup_sub _ _ _ _ _ (i_nd _ _ I)) as ND.
  assert (BD : forall z, (0 < cnt z (ino (plug C t)))%nat -> z < s_cap s1).
  { intros z Hz. rewrite (k_cap _ _ _ K1). apply (i_bnd _ _ I). destruct side; cbn [one]; cn_in Hz; cn_goal; lia. }
  pose proof (i_root _ _ I) as RT.
  destruct C as [|fr C].
  - cbn [par_of is_none]. rewrite st_bind, st_set_root. cbn [plug] in *.
    destruct t as [|ct tl it tr]; cbn [root_of o_set_parent].
    + rewrite st_ret. eexists. split; [reflexivity|]. split; [|split].
      * constructor; [exact R1|exact ND|exact BD|reflexivity].
      * exact X1.
      * destruct K1 as [K1 K2 K3 K4 K5]. constructor; cbn; auto.
    + unfold n_set_parent. assert (Hit : it < s_cap s1) by (apply BD; cn_goal; lia).
      rewrite st_modify by exact Hit. eexists. split; [reflexivity|].
      cbn [rep] in R1. assert (Pit : c_parent (s_at s1 it) = None) by tauto.
      assert (SP := same_parent (with_root s1 (Some it)) it None Pit).
      split; [|split].
      * constructor; [|exact ND|exact BD|reflexivity].
        eapply rep_ext; [exact SP|exact R1].
      * rewrite SP. exact X1.
      * destruct K1 as [K1 K2 K3 K4 K5]. constructor; auto.
        -- intros j. rewrite SP. apply K4.
        -- intros j Hj. rewrite SP. apply K5, Hj.
  - cbn [par_of is_none]. rewrite st_ret. eexists. split; [reflexivity|]. split; [|split]; auto.
    constructor; auto. rewrite RT1, RT, !root_plug. reflexivity.
Qed.

(* Contexts that go left all the way. *)
Fixpoint all_left (C : ctx) : Prop :=
  match C with [] => True | FL _ _ _ :: C => all_left C | FR _ _ _ :: _ => False end.
Lemma all_left_app C C' : all_left (C ++ C') <-> all_left C /\ all_left C'.
Proof. induction C as [|[c i r|c l i] C IH]; cbn; tauto. Qed.
Lemma left_path : forall l c i r, exists C2 c2 y R, all_left C2 /\ T c l i r = plug C2 (T c2 E y R).
Proof.
  induction l as [|c' l' IH i' r' _]; intros c i r.
  - exists [], c, i, r. now cbn.
  - destruct (IH c' i' r') as (C2 & c2 & y & R & A & E0).
    exists (C2 ++ [FL c i r]), c2, y, R. split; [apply all_left_app; cbn; auto|].
    rewrite plug_app. cbn. now rewrite <- E0.
Qed.

Lemma swap_ok (s : st) C c A x C2 c2 y R : A <> E -> all_left C2 ->
  Inv s (plug C (T c A x (plug C2 (T c2 E y R)))) ->
  exists s', swap x y s = Val (tt, s') /\
    swapped s s' (plug C (T c A x (plug C2 (T c2 E y R)))) (plug C (T c A y (plug C2 (T c2 E x R)))).
Proof.
  intros HA HL I. destruct A as [|ca al ia ar]; [congruence|].
  destruct C2 as [|[c3 p3 r3|c3 l3 p3] C2]; [apply swap_adj, I| |destruct HL].
  destruct C2 as [|f C2 _] using rev_ind; [apply swap_one, I|].
  cbn [all_left] in HL. apply all_left_app in HL. destruct f as [c4 p4 r4|]; [|cbn in HL; tauto].
  apply swap_far, I.
Qed.

Lemma with_top_ok (s : st) C c A x C2 c2 y R : A <> E -> all_left C2 ->
  Inv s (plug C (T c A x (plug C2 (T c2 E y R)))) ->
  forall (B : Type) (k : @mon D B), exists s', 
   mbind (swap x y) (fun _ => mbind (n_parent y) (fun p =>
    mbind (if is_none p then mbind (set_root (Some y)) (fun _ => n_set_parent y None) else ret tt) (fun _ => k))) s = k s' /\
   Inv s' (plug C (T c A y (plug C2 (T c2 E x R)))) /\ keeps s s' (ino (plug C (T c A x (plug C2 (T c2 E y R))))).
Proof.
  intros HA HL I B k. destruct (swap_ok s C c A x C2 c2 y R HA HL I) as (s1 & E1 & R1 & RT1 & K1).
  rewrite (st_run _ _ _ _ _ E1).
  assert (Hy : y < s_cap s1).
  { rewrite (k_cap _ _ _ K1). apply (i_bnd _ _ I). cn_goal. clear. lia. }
  assert (ND : nodup (ino (plug C (T c A y (plug C2 (T c2 E x R)))))).
  { intros z. pose proof (i_nd _ _ I z) as Q. cn_in Q. cn_goal. clear - Q. lia. }
  assert (BD : forall z, (0 < cnt z (ino (plug C (T c A y (plug C2 (T c2 E x R))))))%nat -> z < s_cap s1).
  { intros z Hz. rewrite (k_cap _ _ _ K1). apply (i_bnd _ _ I). cn_in Hz. cn_goal. clear - Hz. lia. }
  assert (Py : c_parent (s_at s1 y) = par_of C).
  { pose proof R1 as Q. rewrite rep_plug in Q. destruct Q as [_ Q]. cbn [rep] in Q. tauto. }
  rewrite st_parent, Py by exact Hy. pose proof (i_root _ _ I) as RT.
  destruct C as [|fr C].
  - cbn [par_of is_none plug] in *. rewrite st_bind, st_set_root. unfold n_set_parent.
    rewrite st_modify by exact Hy. eexists. split; [reflexivity|].
    assert (SP := same_parent (with_root s1 (Some y)) y None Py). split.
    + constructor; [|exact ND|exact BD|reflexivity]. eapply rep_ext; [exact SP|exact R1].
    + destruct K1 as [K1 K2 K3 K4 K5]. constructor; auto.
      * intros j. rewrite SP. apply K4.
      * intros j Hj. rewrite SP. apply K5, Hj.
  - cbn [par_of is_none]. rewrite st_ret. eexists. split; [reflexivity|]. split; auto.
    constructor; auto. rewrite RT1, RT, !root_plug. reflexivity.
Qed.

(* The walk down to the left. *)
Lemma leftmost_ok (s : st) : forall n C C2 c y R, all_left C2 -> (length C2 < n)%nat ->
  Inv s (plug C (plug C2 (T c E y R))) ->
  forall i, root_of (plug C2 (T c E y R)) = Some i -> leftmost n i s = Val (y, s).
Proof.
  induction n as [|n IH]; intros C C2 c y R HL Hn I i Hi; [lia|].
  cbn [leftmost]. destruct C2 as [|f C2 _] using rev_ind.
  - cbn in Hi. injection Hi as <-. know I. rewrite st_left by assumption. rewrite H2. reflexivity.
  - apply all_left_app in HL. destruct f as [c4 p4 r4|]; [|cbn in HL; tauto]. destruct HL as [HL _].
    rewrite plug_app in Hi, I. cbn [plug plug1 root_of] in Hi, I. injection Hi as <-.
    know I. rewrite st_left by assumption. rewrite H2.
    destruct (root_of (plug C2 (T c E y R))) as [j|] eqn:Ej.
    + apply (IH (FL c4 p4 r4 :: C) C2 c y R); auto. rewrite app_length in Hn. cbn in Hn. lia.
    + exfalso. clear - Ej. rewrite root_plug in Ej. cbn in Ej. revert Ej. generalize y.
      induction C2 as [|f C2 IH]; intros z; cbn; [discriminate|]. apply IH.
Qed.

Lemma fuel_ok (s : st) C t : Inv s (plug C t) -> (length C < fuel s)%nat.
Proof.
  intros I. unfold fuel. pose proof (ctx_length C t) as H.
  assert (length (ino (plug C t)) <= N.to_nat (s_cap s))%nat; [|lia].
  apply nodup_bound; [apply (i_nd _ _ I)|]. intros z Hz. apply In_cnt in Hz. now apply (i_bnd _ _ I).
Qed.

Lemma successor_ok (s : st) C c A x C2 c2 y R : all_left C2 ->
  Inv s (plug C (T c A x (plug C2 (T c2 E y R)))) -> successor x s = Val (Some y, s).
Proof.
  intros HL I. unfold successor. know I. rewrite st_right by assumption. rewrite H3.
  destruct (root_of (plug C2 (T c2 E y R))) as [j|] eqn:Ej.
  - assert (I' : Inv s (plug (FR c A x :: C) (plug C2 (T c2 E y R)))) by exact I.
    assert (E1 : with_fuel (fun n => leftmost n j) s = Val (y, s)).
    { unfold with_fuel. eapply leftmost_ok; [exact HL| |exact I'|exact Ej].
      rewrite <- plug_app in I'. apply fuel_ok in I'. rewrite app_length in I'. lia. }
    rewrite (st_run _ _ _ _ _ E1). reflexivity.
  - exfalso. clear - Ej. rewrite root_plug in Ej. cbn in Ej. revert Ej. generalize y.
      induction C2 as [|f C2 IH]; intros z; cbn; [discriminate|]. apply IH.
Qed.

(* Out of the tree: the in-order list loses exactly x. *)
Definition removed (s s' : st) (C : ctx) (l r : tree) (t : tree) (t' : tree) : Prop :=
  Inv s' t' /\ ino t' = lpart C ++ ino l ++ ino r ++ rpart C /\ keeps s s' (ino t).

(* The two-children shape, up to the point where the fixup may start. *)
Lemma swap_out_ok (s : st) C c A x C2 c2 y R : A <> E -> all_left C2 ->
  Inv s (plug C (T c A x (plug C2 (T c2 E y R)))) ->
  forall (B : Type) (rm : N -> @mon D (option N)) (k : option N -> @mon D B),
  (forall s C c x t, Inv s (plug C (one false c x t)) -> rm x s = remove01 x s) ->
  exists s',
   mbind (swap x y) (fun _ => mbind (n_parent y) (fun p =>
    mbind (if is_none p then mbind (set_root (Some y)) (fun _ => n_set_parent y None) else ret tt) (fun _ =>
      mbind (rm x) k))) s = k (root_of R) s' /\
   Inv s' (plug (C2 ++ FR c A y :: C) R) /\ c_color (s_at s' x) = c2 /\ x < s_cap s' /\
   keeps s s' (ino (plug C (T c A x (plug C2 (T c2 E y R))))).
Proof.
  intros HA HL I B rm k Hrm.
  destruct (with_top_ok s C c A x C2 c2 y R HA HL I B (mbind (rm x) k)) as (s1 & E1 & I1 & K1).
  rewrite E1.
  assert (I2 : Inv s1 (plug (C2 ++ FR c A y :: C) (one false c2 x R))).
  { rewrite plug_app. exact I1. }
  destruct (remove01_ok s1 false _ _ _ _ I2) as (s2 & E2 & R2 & RT2 & X2 & K2).
  assert (E2' : rm x s1 = Val (root_of R, s2)) by (rewrite <- E2; eapply Hrm, I2).
  rewrite (st_run _ _ _ _ _ E2'). exists s2. split; [reflexivity|].
  assert (Q : x < s_cap s1 /\ c_color (s_at s1 x) = c2).
  { destruct (node_at _ _ _ _ _ _ I2) as (Q1 & Q2 & _). auto. }
  split; [|split; [|split]].
  - constructor.
    + exact R2.
    + eapply nodup_sub, (i_nd _ _ I2).
    + intros z Hz. rewrite (k_cap _ _ _ K2). apply (i_bnd _ _ I2). cbn [one]. cn_in Hz. cn_goal. clear - Hz. lia.
    + rewrite RT2. rewrite (i_root _ _ I2), !root_plug.
      clear. destruct C2; reflexivity.
  - rewrite X2. tauto.
  - rewrite (k_cap _ _ _ K2). tauto.
  - eapply keeps_trans; [|exact K1|exact K2]. intros z. rewrite plug_app. cbn [one plug plug1].
    cn_goal. clear. lia.
Qed.

Lemma rbt_remove_ok (s : st) C c l x r : Inv s (plug C (T c l x r)) ->
  col (plug C (T c l x r)) = true ->
  exists s' t', remove_node_from_tree x s = Val (tt, s') /\
    removed s s' C l r (plug C (T c l x r)) t' /\ col t' = true.
Proof.
  intros I Hc. unfold remove_node_from_tree. know I.
  rewrite st_left, st_right by assumption. rewrite H2, H3.
  rewrite col_plug in Hc. cbn [col] in Hc.
  destruct l as [|lc ll li lr]; destruct r as [|rc rl ri rr]; cbn [root_of is_none andb orb].
  - (* leaf *)
    destruct (fixup_delete_ok (fuel s) s C c E x E (fuel_ok _ _ _ I) I) as (s1 & C1 & c1 & E1 & I1 & L1 & R1 & T1 & K1).
    { destruct C; [now left|right; exact Hc]. }
    assert (E1' : with_fuel (fun n => fixup_delete n (Some x)) s = Val (tt, s1)) by exact E1.
    rewrite (st_run _ _ _ _ _ E1').
    destruct (remove01_ok s1 false C1 c1 x E I1) as (s2 & E2 & R2 & RT2 & X2 & K2).
    rewrite (st_run _ _ _ _ _ E2).
    destruct (node_at _ _ _ _ _ _ I1) as (Q1 & _ & Q3 & _).
    rewrite st_parent by (rewrite (k_cap _ _ _ K2); exact Q1). rewrite X2, Q3.
    assert (EI : ino (plug C1 E) = lpart C ++ ino E ++ ino E ++ rpart C).
    { rewrite ino_plug, L1, R1. reflexivity. }
    assert (ND : nodup (ino (plug C1 E))) by exact (nodup_sub _ _ _ _ false (i_nd _ _ I1)).
    assert (BD : forall z, (0 < cnt z (ino (plug C1 E)))%nat -> z < s_cap s2).
    { intros z Hz. rewrite (k_cap _ _ _ K2). apply (i_bnd _ _ I1). cn_in Hz. cn_goal. clear - Hz. lia. }
    assert (KK : keeps s s2 (ino (plug C (T c E x E)))).
    { eapply keeps_trans; [|exact K1|exact K2]. intros z. cbn [one]. cn_goal. rewrite L1, R1. clear. lia. }
    destruct C1 as [|fr C1].
    + cbn [par_of is_none]. eexists _, E. split; [reflexivity|]. split; [|reflexivity].
      split; [|split; [exact EI|]].
      * constructor; [exact R2|exact ND|exact BD|reflexivity].
      * destruct KK as [A1 A2 A3 A4 A5]. constructor; auto.
    + cbn [par_of is_none]. eexists _, (plug (fr :: C1) E). split; [reflexivity|]. split.
      * split; [|split; [exact EI|exact KK]]. constructor; auto.
        rewrite RT2, (i_root _ _ I1), !root_plug. reflexivity.
      * rewrite col_plug. exact T1.
  - (* only a right child *)
    destruct (detach_ok s false C c x (T rc rl ri rr) I) as (s1 & E1 & I1 & X1 & K1).
    rewrite (st_run _ _ _ _ _ E1). rewrite st_color by (rewrite (k_cap _ _ _ K1); assumption).
    rewrite X1, H0. cbn [root_of].
    destruct c.
    + destruct (fixup_delete_ok (fuel s1) s1 C rc rl ri rr (fuel_ok _ _ _ I1) I1) as (s2 & C2 & c2 & E2 & I2 & L2 & R2 & T2 & K2).
      { destruct C; [now left|right; exact Hc]. }
      exists s2, (plug C2 (T c2 rl ri rr)). split; [exact E2|]. split.
      * split; [exact I2|]. split.
        -- rewrite !ino_plug, L2, R2. cbn [ino app]. reflexivity.
        -- eapply keeps_trans; [reflexivity|exact K1|].
           eapply keeps_incl; [|exact K2]. intros z. cbn [one]. cn_goal. clear. lia.
      * rewrite col_plug. exact T2.
    + exists s1, (plug C (T rc rl ri rr)). split; [reflexivity|]. split.
      * split; [exact I1|]. split; [|exact K1]. rewrite ino_plug. reflexivity.
      * rewrite col_plug. destruct C; [discriminate Hc|exact Hc].
  - (* only a left child *)
    destruct (detach_ok s true C c x (T lc ll li lr) I) as (s1 & E1 & I1 & X1 & K1).
    rewrite (st_run _ _ _ _ _ E1). rewrite st_color by (rewrite (k_cap _ _ _ K1); assumption).
    rewrite X1, H0. cbn [root_of].
    destruct c.
    + destruct (fixup_delete_ok (fuel s1) s1 C lc ll li lr (fuel_ok _ _ _ I1) I1) as (s2 & C2 & c2 & E2 & I2 & L2 & R2 & T2 & K2).
      { destruct C; [now left|right; exact Hc]. }
      exists s2, (plug C2 (T c2 ll li lr)). split; [exact E2|]. split.
      * split; [exact I2|]. split.
        -- rewrite !ino_plug, L2, R2. cbn [ino app]. reflexivity.
        -- eapply keeps_trans; [reflexivity|exact K1|].
           eapply keeps_incl; [|exact K2]. intros z. cbn [one]. cn_goal. clear. lia.
      * rewrite col_plug. exact T2.
    + exists s1, (plug C (T lc ll li lr)). split; [reflexivity|]. split.
      * split; [exact I1|]. split; [|exact K1]. rewrite ino_plug. reflexivity.
      * rewrite col_plug. destruct C; [discriminate Hc|exact Hc].
  - (* two children *)
    destruct (left_path rl rc ri rr) as (C2 & c2 & y & R & HL & ER).
    rewrite ER in I |- *.
    set (A := T lc ll li lr) in *. assert (HA : A <> E) by (unfold A; discriminate).
    rewrite st_bind, (st_run _ _ _ _ _ (successor_ok s C c A x C2 c2 y R HL I)).
    rewrite st_bind.
    match goal with |- context [mbind (swap x y) ?k s] => idtac end.
    destruct (swap_out_ok s C c A x C2 c2 y R HA HL I unit (fun x => remove01 x)
      (fun m => mbind (n_color x) (fun c => if c then with_fuel (fun n => fixup_delete n m) else ret tt))
      (fun s C c x t _ => eq_refl)) as (s1 & E1 & I1 & X1 & Hx1 & K1).
    assert (E1' : mbind (swap x y) (fun a => mbind (mbind (n_parent y) (fun p =>
       mbind (if is_none p then mbind (set_root (Some y)) (fun _ => n_set_parent y None) else ret tt) (fun _ => remove01 x)))
       (fun m => mbind (n_color x) (fun c => if c then with_fuel (fun n => fixup_delete n m) else ret tt))) s =
       mbind (n_color x) (fun c => if c then with_fuel (fun n => fixup_delete n (root_of R)) else ret tt) s1).
    { rewrite <- E1. unfold mbind. destruct (swap x y s) as [[a0 s0]| | |]; auto.
      destruct (n_parent y s0) as [[a2 s2]| | |]; auto.
      destruct (is_none a2); unfold set_root, ret, n_set_parent, modify; cbn;
        [destruct (y <? s_cap s2); auto|]; destruct (remove01 x _) as [[a3 s3]| | |]; auto. }
    rewrite E1'. rewrite st_color by assumption. rewrite X1.
    assert (EI : forall C', lpart C' = lpart (C2 ++ FR c A y :: C) -> rpart C' = rpart (C2 ++ FR c A y :: C) ->
      forall t, ino t = ino R -> ino (plug C' t) = lpart C ++ ino A ++ ino (plug C2 (T c2 E y R)) ++ rpart C).
    { intros C' HL' HR' t Ht. rewrite ino_plug, HL', HR', Ht.
      assert (E3 : ino (plug (C2 ++ FR c A y :: C) R) = lpart C ++ ino A ++ ino (plug C2 (T c2 E y R)) ++ rpart C).
      { rewrite plug_app. cbn [plug plug1]. rewrite ino_plug. cbn [ino].
        rewrite !ino_plug. cbn [ino app].
        rewrite <- !app_assoc. cbn [app]. f_equal. f_equal. f_equal.
        assert (LC : lpart C2 = []). { clear - HL. induction C2 as [|[]]; cbn in *; tauto. }
        rewrite LC. cbn [app]. rewrite <- app_assoc. reflexivity. }
      rewrite ino_plug in E3. exact E3. }
    assert (CT : ctop (C2 ++ FR c A y :: C) true = true).
    { clear - Hc. destruct C2 as [|f C2]; cbn [app ctop f_col]; [exact Hc|].
      generalize (f_col f). induction C2 as [|g C2 IH]; intros b; cbn [app ctop f_col]; auto. }
    assert (CT' : forall b, ctop (C2 ++ FR c A y :: C) b = true).
    { intros b. rewrite <- CT. destruct C2; reflexivity. }
    destruct c2.
    + destruct R as [|cR lR iR rR]; cbn [root_of].
      * unfold with_fuel at 1, fuel at 1. cbn [fixup_delete o_parent o_set_color]. rewrite st_ret.
        exists s1, (plug (C2 ++ FR c A y :: C) E). split; [reflexivity|]. split.
        -- split; [exact I1|]. split; [apply EI; reflexivity|exact K1].
        -- rewrite col_plug. apply CT'.
      * destruct (fixup_delete_ok (fuel s1) s1 _ cR lR iR rR (fuel_ok _ _ _ I1) I1) as (s2 & C3 & c3 & E2 & I2 & L2 & R2 & T2 & K2).
        { right. exact CT. }
        exists s2, (plug C3 (T c3 lR iR rR)). split; [exact E2|]. split.
        -- split; [exact I2|]. split.
           ++ apply EI; auto.
           ++ eapply keeps_trans; [reflexivity|exact K1|].
              eapply keeps_incl; [|exact K2]. intros z. rewrite plug_app. cn_goal. clear. lia.
        -- rewrite col_plug. exact T2.
    + exists s1, (plug (C2 ++ FR c A y :: C) R). split; [reflexivity|]. split.
      * split; [exact I1|]. split; [apply EI; reflexivity|exact K1].
      * rewrite col_plug. apply CT'.
Qed.

Lemma bst_remove_ok (s : st) C c l x r : Inv s (plug C (T c l x r)) ->
  exists s' t', bst_remove_node_from_tree x s = Val (tt, s') /\
    removed s s' C l r (plug C (T c l x r)) t'.
Proof.
  intros I. unfold bst_remove_node_from_tree. know I.
  rewrite st_left, st_right by assumption. rewrite H2, H3.
  assert (ONE : forall side t, T c l x r = one side c x t -> ino t = ino l ++ ino r ->
    exists s' t', mbind (bst_remove01 x) (fun m => mbind (n_parent x) (fun p =>
      if is_none p then mbind (set_root m) (fun _ => o_set_parent m None) else ret tt)) s = Val (tt, s') /\
      removed s s' C l r (plug C (T c l x r)) t').
  { intros side t ET EI. rewrite ET in I |- *.
    destruct (detach_ok s side C c x t I) as (s1 & E1 & I1 & X1 & K1).
    exists s1, (plug C t). split.
    - clear - E1 I. revert E1. unfold mbind. rewrite (bst_remove01_same s side C c x t I).
      destruct (remove01 x s) as [[a s2]| | |]; try discriminate.
      destruct (n_parent x s2) as [[b s3]| | |]; try discriminate.
      destruct (is_none b).
      + destruct (set_root a s3) as [[[] s4]| | |]; try discriminate.
        destruct (o_set_parent a None s4) as [[[] s5]| | |]; try discriminate.
        unfold ret. congruence.
      + unfold ret. congruence.
    - split; [exact I1|]. split; [|exact K1]. rewrite ino_plug, EI, <- app_assoc. reflexivity. }
  destruct l as [|lc ll li lr]; destruct r as [|rc rl ri rr]; cbn [root_of is_none andb orb].
  - apply (ONE false E); reflexivity.
  - apply (ONE false (T rc rl ri rr)); reflexivity.
  - apply (ONE true (T lc ll li lr)); [reflexivity|]. cbn [ino]. now rewrite app_nil_r.
  - clear ONE. destruct (left_path rl rc ri rr) as (C2 & c2 & y & R & HL & ER).
    rewrite ER in I |- *.
    set (A := T lc ll li lr) in *. assert (HA : A <> E) by (unfold A; discriminate).
    rewrite (st_run _ _ _ _ _ (successor_ok s C c A x C2 c2 y R HL I)).
    destruct (swap_out_ok s C c A x C2 c2 y R HA HL I unit bst_remove01 (fun _ => ret tt)
      (fun s C c x t H => bst_remove01_same s false C c x t H)) as (s1 & E1 & I1 & X1 & Hx1 & K1).
    rewrite E1. exists s1, (plug (C2 ++ FR c A y :: C) R). split; [reflexivity|].
    split; [exact I1|]. split; [|exact K1].
    rewrite plug_app. cbn [plug plug1]. rewrite ino_plug. cbn [ino].
    rewrite !ino_plug. cbn [ino app].
    rewrite <- !app_assoc. cbn [app]. f_equal. f_equal.
    assert (LC : lpart C2 = []). { clear - HL. induction C2 as [|[]]; cbn in *; tauto. }
    rewrite LC. cbn [app]. rewrite <- app_assoc. reflexivity.
Qed.

End RemTree.
