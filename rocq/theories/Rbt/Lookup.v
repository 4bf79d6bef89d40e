(* Walking the tree without changing it. *)
From Coq Require Import NArith List Bool Lia Permutation Sorted.
From Verif Require Import Base.Prelude Rbt.Model Rbt.Spec Rbt.Tree Rbt.Heap Rbt.FixAdd.
Import ListNotations.
Local Open Scope N_scope.

Section Lookup.
Context {D K : Type}.
Variable key : D -> K.
Variable cmp : K -> K -> comparison.
Hypothesis TO : total_order cmp.
Notation st := (@st D).

(* A subtree that can be read. *)
Definition sub (s : st) (par : option N) (t : tree) : Prop :=
  rep (s_at s) par t /\ forall z, In z (ino t) -> z < s_cap s.
Lemma sub_inv (s : st) C t : Inv s (plug C t) -> sub s (par_of C) t.
Proof.
  intros [R ND BD RT]. rewrite rep_plug in R. split; [tauto|].
  intros z Hz. apply BD. apply In_cnt. rewrite ino_plug. apply in_or_app. right. apply in_or_app. now left.
Qed.
Lemma sub_T (s : st) par c l i r : sub s par (T c l i r) ->
  i < s_cap s /\ c_left (s_at s i) = root_of l /\ c_right (s_at s i) = root_of r /\
  sub s (Some i) l /\ sub s (Some i) r.
Proof.
  intros [R B]. cbn [rep] in R. destruct R as (A1 & A2 & A3 & A4 & Rl & Rr). cbn [ino] in B.
  repeat split; auto.
  - apply B. apply in_or_app. right. now left.
  - intros z Hz. apply B. apply in_or_app. now left.
  - intros z Hz. apply B. apply in_or_app. right. now right.
Qed.

Definition kd (s : st) (i : N) : K := key (c_data (s_at s i)).
Definition srt (s : st) (l : list N) : Prop := StronglySorted (fun i j => cmp (kd s i) (kd s j) = Lt) l.

Lemma srt_app (s : st) a b : srt s (a ++ b) <->
  srt s a /\ srt s b /\ forall i j, In i a -> In j b -> cmp (kd s i) (kd s j) = Lt.
Proof.
  unfold srt. induction a as [|x a IH]; cbn [app].
  - split; [intros H; repeat split; auto; [constructor|intros i j []]|tauto].
  - split.
    + intros H. inversion H; subst. apply IH in H2. destruct H2 as (A & B & C0).
      rewrite Forall_app in H3. destruct H3 as [F1 F2]. repeat split; auto.
      * constructor; auto.
      * intros i j [<-|Hi] Hj; [|auto]. rewrite Forall_forall in F2. auto.
    + intros (A & B & C0). inversion A; subst. constructor.
      * apply IH. repeat split; auto. intros; apply C0; auto. now right.
      * apply Forall_app. split; auto. apply Forall_forall. intros j Hj. apply C0; auto. now left.
Qed.
Lemma srt_cons (s : st) x b : srt s (x :: b) <-> srt s b /\ forall j, In j b -> cmp (kd s x) (kd s j) = Lt.
Proof.
  unfold srt. split.
  - intros H. inversion H; subst. rewrite Forall_forall in H3. auto.
  - intros [A B]. constructor; auto. now apply Forall_forall.
Qed.
Lemma srt_T (s : st) l i r : srt s (ino l ++ i :: ino r) ->
  srt s (ino l) /\ srt s (ino r) /\ (forall j, In j (ino l) -> cmp (kd s j) (kd s i) = Lt) /\
  (forall j, In j (ino r) -> cmp (kd s i) (kd s j) = Lt).
Proof.
  intros H. apply srt_app in H. destruct H as (A & B & C0). apply srt_cons in B. destruct B as [B B'].
  repeat split; auto. intros j Hj. apply C0; auto. now left.
Qed.

(* Order facts. *)
Lemma cmp_sym a b c : cmp a b = c -> cmp b a = CompOpp c.
Proof. intros <-. apply (to_opp _ TO). Qed.
Lemma cmp_lt_lt a b c : cmp a b = Lt -> cmp b c = Lt -> cmp a c = Lt.
Proof. apply (to_trans _ TO). Qed.
Lemma cmp_gt_gt a b c : cmp a b = Gt -> cmp c b = Lt -> cmp a c = Gt.
Proof.
  intros H H'. apply cmp_sym in H. cbn in H. pose proof (cmp_lt_lt _ _ _ H' H) as Q.
  apply cmp_sym in Q. exact Q.
Qed.
Lemma cmp_eq_l a b c : cmp a b = Eq -> cmp a c = cmp b c.
Proof. apply (to_eq _ TO). Qed.

Fixpoint find_t (s : st) (k : K) (t : tree) : option N :=
  match t with
  | E => None
  | T _ l i r => match cmp k (kd s i) with Eq => Some i | Lt => find_t s k l | Gt => find_t s k r end
  end.
Lemma find_node_run (s : st) k : forall t n par, sub s par t -> (length (ino t) < n)%nat ->
  find_node key cmp n k (root_of t) s = Val (find_t s k t, s).
Proof.
  induction t as [|c l IHl i r IHr]; intros n par S Hn; (destruct n as [|n]; [lia|]); cbn [find_node root_of find_t].
  - reflexivity.
  - apply sub_T in S. destruct S as (Hi & E1 & E2 & Sl & Sr).
    cbn [ino] in Hn. rewrite app_length in Hn. cbn [length] in Hn.
    rewrite st_data by exact Hi. fold (kd s i). destruct (cmp k (kd s i)).
    + reflexivity.
    + rewrite st_left, E1 by exact Hi. eapply IHl; [exact Sl|lia].
    + rewrite st_right, E2 by exact Hi. eapply IHr; [exact Sr|lia].
Qed.
Lemma find_t_ok (s : st) k : forall t, srt s (ino t) ->
  match find_t s k t with
  | Some i => In i (ino t) /\ cmp k (kd s i) = Eq
  | None => forall i, In i (ino t) -> cmp k (kd s i) <> Eq
  end.
Proof.
  induction t as [|c l IHl i r IHr]; cbn [find_t ino]; intros S.
  - intros i [].
  - apply srt_T in S. destruct S as (Sl & Sr & Ll & Lr).
    destruct (cmp k (kd s i)) eqn:Ek.
    + split; auto. apply in_or_app. right. now left.
    + specialize (IHl Sl). destruct (find_t s k l).
      * destruct IHl. split; auto. apply in_or_app. now left.
      * intros j Hj. apply in_app_or in Hj. destruct Hj as [Hj|[<-|Hj]]; auto.
        -- now rewrite Ek.
        -- rewrite (cmp_lt_lt _ _ _ Ek (Lr j Hj)). discriminate.
    + specialize (IHr Sr). destruct (find_t s k r).
      * destruct IHr. split; auto. apply in_or_app. right. now right.
      * intros j Hj. apply in_app_or in Hj. destruct Hj as [Hj|[<-|Hj]]; auto.
        -- rewrite (cmp_gt_gt _ _ _ Ek (Ll j Hj)). discriminate.
        -- now rewrite Ek.
Qed.

Lemma fuel_size (s : st) t : Inv s t -> (length (ino t) < fuel s)%nat.
Proof.
  intros I. unfold fuel. assert (length (ino t) <= N.to_nat (s_cap s))%nat; [|lia].
  apply nodup_bound; [apply (i_nd _ _ I)|]. intros z Hz. apply In_cnt in Hz. now apply (i_bnd _ _ I).
Qed.
Lemma get_node_ok (s : st) t k : Inv s t -> get_node key cmp k s = Val (find_t s k t, s).
Proof.
  intros I. unfold get_node. rewrite st_get_root, (i_root _ _ I). unfold with_fuel.
  eapply find_node_run; [|apply fuel_size, I]. exact (sub_inv s [] t I).
Qed.

Fixpoint close_t (s : st) (k : K) (t : tree) (best : option N) : option N :=
  match t with
  | E => best
  | T _ l i r => match cmp k (kd s i) with Eq => Some i | Lt => close_t s k l best | Gt => close_t s k r (Some i) end
  end.
Lemma closest_run (s : st) k : forall t n par best, sub s par t -> (length (ino t) < n)%nat ->
  closest key cmp n k (root_of t) best s = Val (close_t s k t best, s).
Proof.
  induction t as [|c l IHl i r IHr]; intros n par best S Hn; (destruct n as [|n]; [lia|]); cbn [closest root_of close_t].
  - reflexivity.
  - apply sub_T in S. destruct S as (Hi & E1 & E2 & Sl & Sr).
    cbn [ino] in Hn. rewrite app_length in Hn. cbn [length] in Hn.
    rewrite st_data by exact Hi. fold (kd s i). destruct (cmp k (kd s i)).
    + reflexivity.
    + rewrite st_left, E1 by exact Hi. eapply IHl; [exact Sl|lia].
    + rewrite st_right, E2 by exact Hi. eapply IHr; [exact Sr|lia].
Qed.
Lemma close_t_ok (s : st) k : forall t best, srt s (ino t) ->
  (exists a i b, close_t s k t best = Some i /\ ino t = a ++ i :: b /\ cmp k (kd s i) <> Lt /\
     forall j, In j b -> cmp k (kd s j) = Lt) \/
  (close_t s k t best = best /\ forall j, In j (ino t) -> cmp k (kd s j) = Lt).
Proof.
  induction t as [|c l IHl i r IHr]; cbn [close_t ino]; intros best S.
  - right. split; auto. intros j [].
  - apply srt_T in S. destruct S as (Sl & Sr & Ll & Lr).
    destruct (cmp k (kd s i)) eqn:Ek.
    + left. exists (ino l), i, (ino r). repeat split; auto; [now rewrite Ek|].
      intros j Hj. rewrite (cmp_eq_l _ _ _ Ek). auto.
    + destruct (IHl best Sl) as [(a & j & b & E1 & E2 & E3 & E4)|[E1 E2]].
      * left. exists a, j, (b ++ i :: ino r). repeat split; auto.
        -- rewrite E2, <- app_assoc. reflexivity.
        -- intros z Hz. apply in_app_or in Hz. destruct Hz as [Hz|[<-|Hz]]; auto.
           eapply cmp_lt_lt; eauto.
      * right. split; auto. intros z Hz. apply in_app_or in Hz. destruct Hz as [Hz|[<-|Hz]]; auto.
        eapply cmp_lt_lt; eauto.
    + left. destruct (IHr (Some i) Sr) as [(a & j & b & E1 & E2 & E3 & E4)|[E1 E2]].
      * exists (ino l ++ i :: a), j, b. repeat split; auto.
        rewrite E2, <- app_assoc. reflexivity.
      * exists (ino l), i, (ino r). repeat split; auto. now rewrite Ek.
Qed.

(* Extremes. *)
Lemma leftmost_run (s : st) : forall t n par i, sub s par t -> (length (ino t) < n)%nat -> root_of t = Some i ->
  exists y b, leftmost n i s = Val (y, s) /\ ino t = y :: b.
Proof.
  induction t as [|c l IHl i r IHr]; intros n par j S Hn E0; [discriminate|].
  cbn in E0. injection E0 as <-. destruct n as [|n]; [lia|]. cbn [leftmost].
  apply sub_T in S. destruct S as (Hi & E1 & E2 & Sl & Sr).
  cbn [ino] in Hn |- *. rewrite app_length in Hn. cbn [length] in Hn.
  rewrite st_left, E1 by exact Hi. destruct (root_of l) as [j|] eqn:El.
  - destruct (IHl n _ j Sl ltac:(lia) eq_refl) as (y & b & A & B). exists y, (b ++ i :: ino r).
    split; auto. now rewrite B.
  - destruct l; [|discriminate]. exists i, (ino r). now split.
Qed.
Lemma rightmost_run (s : st) : forall t n par i, sub s par t -> (length (ino t) < n)%nat -> root_of t = Some i ->
  exists y b, rightmost n i s = Val (y, s) /\ ino t = b ++ [y].
Proof.
  induction t as [|c l IHl i r IHr]; intros n par j S Hn E0; [discriminate|].
  cbn in E0. injection E0 as <-. destruct n as [|n]; [lia|]. cbn [rightmost].
  apply sub_T in S. destruct S as (Hi & E1 & E2 & Sl & Sr).
  cbn [ino] in Hn |- *. rewrite app_length in Hn. cbn [length] in Hn.
  rewrite st_right, E2 by exact Hi. destruct (root_of r) as [j|] eqn:El.
  - destruct (IHr n _ j Sr ltac:(lia) eq_refl) as (y & b & A & B). exists y, (ino l ++ i :: b).
    split; auto. rewrite B, <- app_assoc. reflexivity.
  - destruct r; [|discriminate]. exists i, (ino l). now split.
Qed.

Lemma first_idx_ok (s : st) t : Inv s t -> first_idx s = Val (hd_error (ino t), s).
Proof.
  intros I. unfold first_idx. rewrite st_get_root, (i_root _ _ I).
  destruct (root_of t) as [i|] eqn:E0.
  - destruct (leftmost_run s t (fuel s) None i (sub_inv s [] t I) (fuel_size s t I) E0) as (y & b & A & B).
    assert (A' : with_fuel (fun n => leftmost n i) s = Val (y, s)) by exact A.
    rewrite (st_run _ _ _ _ _ A'), B. reflexivity.
  - destruct t; [reflexivity|discriminate].
Qed.
Lemma last_idx_ok (s : st) t : Inv s t -> last_idx s = Val (hd_error (rev (ino t)), s).
Proof.
  intros I. unfold last_idx. rewrite st_get_root, (i_root _ _ I).
  destruct (root_of t) as [i|] eqn:E0.
  - destruct (rightmost_run s t (fuel s) None i (sub_inv s [] t I) (fuel_size s t I) E0) as (y & b & A & B).
    assert (A' : with_fuel (fun n => rightmost n i) s = Val (y, s)) by exact A.
    rewrite (st_run _ _ _ _ _ A'), B, rev_app_distr. reflexivity.
  - destruct t; [reflexivity|discriminate].
Qed.

(* A slot of the tree, seen through its context. *)
Lemma In_split_t : forall t i, In i (ino t) -> exists C c l r, t = plug C (T c l i r).
Proof.
  induction t as [|c l IHl j r IHr]; cbn [ino]; intros i H; [destruct H|].
  apply in_app_or in H. destruct H as [H|[<-|H]].
  - destruct (IHl i H) as (C & c' & l' & r' & E0). exists (C ++ [FL c j r]), c', l', r'.
    rewrite plug_app, <- E0. reflexivity.
  - exists [], c, l, r. reflexivity.
  - destruct (IHr i H) as (C & c' & l' & r' & E0). exists (C ++ [FR c l j]), c', l', r'.
    rewrite plug_app, <- E0. reflexivity.
Qed.

Lemma climb_left_ok (s : st) : forall n C c l i r, (length C < n)%nat -> Inv s (plug C (T c l i r)) ->
  climb n true i s = Val (hd_error (rpart C), s).
Proof.
  induction n as [|n IH]; intros C c l i r Hn I; [lia|]. cbn [climb].
  pose proof (node_at _ _ _ _ _ _ I) as (Hi & _ & HP & _).
  rewrite st_parent, HP by exact Hi.
  destruct C as [|[c0 p r0|c0 l0 p] C]; cbn [par_of f_idx rpart hd_error].
  - reflexivity.
  - cbn [plug plug1] in I. pose proof (node_at _ _ _ _ _ _ I) as (Hp & _ & _ & HL & _).
    rewrite st_left, HL by exact Hp. cbn [root_of]. rewrite peq_same. reflexivity.
  - pose proof (inv_peq _ _ _ _ _ _ _ I) as PQ.
    cbn [plug plug1] in I. pose proof (node_at _ _ _ _ _ _ I) as (Hp & _ & _ & HL & _).
    rewrite st_left, HL by exact Hp. cbn [f_sib] in PQ.
    assert (PQ' : peq (root_of l0) (Some i) = false).
    { destruct (root_of l0); [|reflexivity]. cbn in *. now rewrite N.eqb_sym. }
    rewrite PQ'. eapply IH; [cbn in Hn; lia|exact I].
Qed.
Lemma climb_right_ok (s : st) : forall n C c l i r, (length C < n)%nat -> Inv s (plug C (T c l i r)) ->
  climb n false i s = Val (hd_error (rev (lpart C)), s).
Proof.
  induction n as [|n IH]; intros C c l i r Hn I; [lia|]. cbn [climb].
  pose proof (node_at _ _ _ _ _ _ I) as (Hi & _ & HP & _).
  rewrite st_parent, HP by exact Hi.
  destruct C as [|[c0 p r0|c0 l0 p] C]; cbn [par_of f_idx lpart].
  - reflexivity.
  - pose proof (inv_peq _ _ _ _ _ _ _ I) as PQ.
    cbn [plug plug1] in I. pose proof (node_at _ _ _ _ _ _ I) as (Hp & _ & _ & _ & HR).
    rewrite st_right, HR by exact Hp. cbn [f_sib] in PQ.
    assert (PQ' : peq (root_of r0) (Some i) = false).
    { destruct (root_of r0); [|reflexivity]. cbn in *. now rewrite N.eqb_sym. }
    rewrite PQ'. eapply IH; [cbn in Hn; lia|exact I].
  - cbn [plug plug1] in I. pose proof (node_at _ _ _ _ _ _ I) as (Hp & _ & _ & _ & HR).
    rewrite st_right, HR by exact Hp. cbn [root_of]. rewrite peq_same.
    rewrite app_assoc, rev_app_distr. reflexivity.
Qed.

Lemma fuel_ctx (s : st) C t : Inv s (plug C t) -> (length C < fuel s)%nat.
Proof. intros I. pose proof (ctx_length C t). pose proof (fuel_size _ _ I). lia. Qed.

Lemma next_idx_ok (s : st) C c l i r : Inv s (plug C (T c l i r)) ->
  next_idx i s = Val (hd_error (ino r ++ rpart C), s).
Proof.
  intros I. pose proof (node_at _ _ _ _ _ _ I) as (Hi & _ & HP & HL & HR).
  unfold next_idx. destruct (N.ltb_spec i (s_cap s)); [|lia].
  rewrite st_right, HR by exact Hi. destruct (root_of r) as [j|] eqn:Er.
  - unfold successor. rewrite st_right, HR by exact Hi.
    assert (I' : Inv s (plug (FR c l i :: C) r)) by exact I.
    assert (Hf : (length (ino r) < fuel s)%nat).
    { pose proof (fuel_size _ _ I') as Q. rewrite ino_plug, !app_length in Q. lia. }
    destruct (leftmost_run s r (fuel s) _ j (sub_inv _ _ _ I') Hf Er) as (y & b & A & B).
    assert (A' : with_fuel (fun n => leftmost n j) s = Val (y, s)) by exact A.
    rewrite (st_run _ _ _ _ _ A'), B. reflexivity.
  - destruct r; [|discriminate]. cbn [ino app]. unfold with_fuel.
    eapply climb_left_ok; [|exact I]. eapply fuel_ctx, I.
Qed.
Lemma prev_idx_ok (s : st) C c l i r : Inv s (plug C (T c l i r)) ->
  prev_idx i s = Val (hd_error (rev (lpart C ++ ino l)), s).
Proof.
  intros I. pose proof (node_at _ _ _ _ _ _ I) as (Hi & _ & HP & HL & HR).
  unfold prev_idx. destruct (N.ltb_spec i (s_cap s)); [|lia].
  rewrite st_left, HL by exact Hi. destruct (root_of l) as [j|] eqn:Er.
  - unfold predecessor. rewrite st_left, HL by exact Hi.
    assert (I' : Inv s (plug (FL c i r :: C) l)) by exact I.
    assert (Hf : (length (ino l) < fuel s)%nat).
    { pose proof (fuel_size _ _ I') as Q. rewrite ino_plug, !app_length in Q. lia. }
    destruct (rightmost_run s l (fuel s) _ j (sub_inv _ _ _ I') Hf Er) as (y & b & A & B).
    assert (A' : with_fuel (fun n => rightmost n j) s = Val (y, s)) by exact A.
    rewrite (st_run _ _ _ _ _ A'), B, app_assoc, rev_app_distr. reflexivity.
  - destruct l; [|discriminate]. cbn [ino]. rewrite app_nil_r. unfold with_fuel.
    eapply climb_right_ok; [|exact I]. eapply fuel_ctx, I.
Qed.

Lemma dfs_run (s : st) : forall t n par, sub s par t -> (length (ino t) < n)%nat ->
  dfs_from n (root_of t) s = Val (map (fun i => c_data (s_at s i)) (ino t), s).
Proof.
  induction t as [|c l IHl i r IHr]; intros n par S Hn; (destruct n as [|n]; [lia|]); cbn [dfs_from root_of].
  - reflexivity.
  - apply sub_T in S. destruct S as (Hi & E1 & E2 & Sl & Sr).
    cbn [ino] in Hn |- *. rewrite app_length in Hn. cbn [length] in Hn.
    rewrite st_left, E1 by exact Hi. rewrite (st_run _ _ _ _ _ (IHl n _ Sl ltac:(lia))).
    rewrite st_data by exact Hi.
    rewrite st_right, E2 by exact Hi. rewrite (st_run _ _ _ _ _ (IHr n _ Sr ltac:(lia))).
    unfold ret. rewrite map_app. reflexivity.
Qed.

Fixpoint ht (t : tree) : N := match t with E => 0 | T _ l _ r => N.max (ht l) (ht r) + 1 end.
Lemma height_run (s : st) : forall t n par, sub s par t -> (length (ino t) < n)%nat ->
  height_from n (root_of t) s = Val (ht t, s).
Proof.
  induction t as [|c l IHl i r IHr]; intros n par S Hn; (destruct n as [|n]; [lia|]); cbn [height_from root_of].
  - reflexivity.
  - apply sub_T in S. destruct S as (Hi & E1 & E2 & Sl & Sr).
    cbn [ino] in Hn. rewrite app_length in Hn. cbn [length] in Hn.
    rewrite st_left, E1 by exact Hi. rewrite (st_run _ _ _ _ _ (IHl n _ Sl ltac:(lia))).
    rewrite st_right, E2 by exact Hi. rewrite (st_run _ _ _ _ _ (IHr n _ Sr ltac:(lia))).
    reflexivity.
Qed.
Lemma height_ok (s : st) t : Inv s t -> height s = Val (ht t, s).
Proof.
  intros I. unfold height. rewrite st_get_root, (i_root _ _ I). unfold with_fuel.
  eapply height_run; [|apply fuel_size, I]. exact (sub_inv s [] t I).
Qed.
Lemma dfs_ok (s : st) t : Inv s t -> dfs s = Val (map (fun i => c_data (s_at s i)) (ino t), s).
Proof.
  intros I. unfold dfs. rewrite st_get_root, (i_root _ _ I). unfold with_fuel.
  eapply dfs_run; [|apply fuel_size, I]. exact (sub_inv s [] t I).
Qed.
Lemma closest_ok (s : st) t k : Inv s t -> get_closest_idx key cmp k s = Val (close_t s k t None, s).
Proof.
  intros I. unfold get_closest_idx. rewrite st_get_root, (i_root _ _ I). unfold with_fuel.
  eapply closest_run; [|apply fuel_size, I]. exact (sub_inv s [] t I).
Qed.

End Lookup.
