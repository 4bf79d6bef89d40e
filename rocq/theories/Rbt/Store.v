(* Taking slots from the free list and putting nodes into the tree. *)
From Coq Require Import NArith List Bool Lia Permutation Sorted.
From Verif Require Import Base.Prelude Rbt.Model Rbt.Spec Rbt.Tree Rbt.Heap Rbt.Rot Rbt.FixAdd Rbt.FixDel Rbt.Remove Rbt.RemTree Rbt.Lookup.
Import ListNotations.
Local Open Scope N_scope.

Section Store.
Context {D K : Type}.
Variable key : D -> K.
Variable cmp : K -> K -> comparison.
Hypothesis TO : total_order cmp.
Notation st := (@st D).
Notation kd := (Lookup.kd key).
Notation srt := (Lookup.srt key cmp).

(* The free list runs through the right pointers. *)
Fixpoint chain (f : N -> @cell D) (p : option N) (F : list N) : Prop :=
  match F with [] => p = None | i :: F => p = Some i /\ chain f (c_right (f i)) F end.
Lemma chain_frame f f' : forall F p, (forall j, In j F -> c_right (f' j) = c_right (f j)) -> chain f p F -> chain f' p F.
Proof.
  induction F as [|i F IH]; cbn [chain]; intros p H C0; auto. destruct C0 as [-> C0]. split; auto.
  rewrite H by now left. apply IH; auto. intros j Hj. apply H. now right.
Qed.

(* The buffer: a tree t, a free list F, and slots L that belong to neither. *)
Record WF (s : st) (t : tree) (F L : list N) : Prop := {
  w_inv : Inv s t;
  w_chain : chain (s_at s) (s_avail s) F;
  w_nd : nodup (F ++ ino t ++ L);
  w_bnd : forall z, In z (F ++ L) -> z < s_cap s;
  w_total : (length F + length (ino t) + length L = N.to_nat (s_cap s))%nat;
  w_len : s_len s = N.of_nat (length (ino t) + length L);
  w_srt : srt s (ino t);
  w_lost : forall z, In z L -> c_parent (s_at s z) = None /\ c_left (s_at s z) = None /\ c_right (s_at s z) = None }.

Lemma srt_ext (s s' : st) l : (forall j, In j l -> c_data (s_at s' j) = c_data (s_at s j)) -> srt s l -> srt s' l.
Proof.
  unfold srt, Lookup.srt. intros H S. induction S as [|x l S IH F0]; constructor.
  - apply IH. intros j Hj. apply H. now right.
  - apply Forall_forall. intros j Hj. rewrite Forall_forall in F0. unfold Lookup.kd.
    rewrite !H; [apply F0, Hj| |]; [now right|now left].
Qed.

(* A slot taken from the free list. *)
Record taken (s s' : st) (i : N) (d : D) : Prop := {
  tk_cap : s_cap s' = s_cap s;
  tk_len : s_len s' = s_len s + 1;
  tk_avail : s_avail s' = c_right (s_at s i);
  tk_root : s_root s' = s_root s;
  tk_out : forall j, j <> i -> s_at s' j = s_at s j;
  tk_data : c_data (s_at s' i) = d;
  tk_parent : c_parent (s_at s' i) = None;
  tk_left : c_left (s_at s' i) = None;
  tk_right : c_right (s_at s' i) = None }.

Lemma storage_add_ok (s : st) d i : s_avail s = Some i -> i < s_cap s -> s_len s <> s_cap s ->
  exists s', storage_add d s = Val (Some i, s') /\ taken s s' i d.
Proof.
  intros A Hi Hl. unfold storage_add. rewrite A. destruct (N.eqb_spec (s_len s) (s_cap s)); [congruence|].
  rewrite st_right by exact Hi. unfold mbind at 1. cbn [s_cap].
  unfold n_set_left, n_set_right, n_set_parent.
  repeat (rewrite st_modify by exact Hi). unfold mbind, ret.
  eexists. split; [reflexivity|]. constructor; try reflexivity; try (cbn; unfold upd; now rewrite !N.eqb_refl).
  intros j Hj. cbn. unfold upd. apply N.eqb_neq in Hj. now rewrite !Hj.
Qed.
Lemma storage_add_none (s : st) d : (s_avail s = None \/ s_len s = s_cap s) -> storage_add d s = Val (None, s).
Proof.
  intros H. unfold storage_add. destruct (s_avail s) as [i|]; [|reflexivity].
  destruct H as [H|H]; [discriminate|]. rewrite H, N.eqb_refl. reflexivity.
Qed.

Lemma taken_inv (s s' : st) i d t : taken s s' i d -> cnt i (ino t) = 0%nat -> Inv s t -> Inv s' t.
Proof.
  intros [A1 A2 A3 A4 A5 A6 A7 A8 A9] Hi [R ND BD RT].
  constructor; auto.
  - eapply rep_frame; [|exact R]. intros j Hj. apply A5. intros ->. lia.
  - intros z Hz. rewrite A1. auto.
  - now rewrite A4.
Qed.

(* Hanging a leaf into a hole. *)
Lemma hang_ok (s : st) C cx x : C <> [] -> Inv s (plug C E) -> cnt x (ino (plug C E)) = 0%nat -> x < s_cap s ->
  c_color (s_at s x) = cx -> c_left (s_at s x) = None -> c_right (s_at s x) = None ->
  forall (B : Type) (k : @mon D B),
  exists s' cur, par_of C = Some cur /\
    mbind (match C with FL _ _ _ :: _ => n_set_left cur (Some x) | _ => n_set_right cur (Some x) end)
      (fun _ => mbind (n_set_parent x (Some cur)) (fun _ => k)) s = k s' /\
    Inv s' (plug C (T cx E x E)) /\ keeps s s' (x :: ino (plug C E)).
Proof.
  intros HC [R ND BD RT] Hx Hcap X1 X2 X3 B k.
  destruct C as [|fr C]; [congruence|]. exists
    (upds (upds s (f_idx fr) (fun c => match fr with FL _ _ _ => with_left c (Some x) | FR _ _ _ => with_right c (Some x) end)) x
       (fun c => with_parent c (Some (f_idx fr)))), (f_idx fr).
  assert (Hp : f_idx fr < s_cap s) by (apply BD; destruct fr; cbn [f_idx]; cn_goal; lia).
  assert (Nx : x <> f_idx fr).
  { intros ->. destruct fr; cbn [f_idx] in Hx; cn_in Hx; lia. }
  split; [reflexivity|]. split.
  { destruct fr; cbn [f_idx]; unfold n_set_left, n_set_right, n_set_parent; rewrite !st_modify by assumption; reflexivity. }
  rewrite rep_plug in R. destruct R as [RC _].
  assert (ND' : nodup (x :: ino (plug (fr :: C) E))).
  { intros z. rewrite cnt_cons. pose proof (ND z). unfold dl. destruct (N.eqb_spec x z); [subst; lia|lia]. }
  split.
  - constructor.
    + rewrite rep_plug. destruct fr as [c0 i0 r0|c0 l0 i0]; cbn [f_idx] in *; cbn [repc rep root_of par_of f_idx] in *;
      destruct RC as (P1 & P2 & P3 & P4 & RP & RC); clear ND; rename ND' into ND; count_out ND;
      repeat match goal with |- _ /\ _ => split end; cell_goal ND.
    + intros z. pose proof (ND' z) as Q. rewrite ino_plug in Q |- *. cbn [ino app] in Q |- *.
      rewrite cnt_cons, cnt_app in Q. rewrite cnt_app, cnt_cons. lia.
    + intros z Hz. cbn [s_cap upds with_at]. rewrite ino_plug in Hz. cbn [ino app] in Hz.
      rewrite !cnt_app, cnt_cons in Hz. unfold dl in Hz. destruct (N.eqb_spec x z) as [Exz|?]; [rewrite <- Exz; exact Hcap|].
      apply BD. rewrite ino_plug. cbn [ino app]. rewrite cnt_app. lia.
    + cbn [s_root upds with_at]. rewrite RT, !root_plug. reflexivity.
  - constructor; try reflexivity.
    + intros j. rewrite data_upds by reflexivity. rewrite data_upds; [reflexivity|]. intros c. now destruct fr.
    + intros j Hj. rewrite cnt_cons in Hj. rewrite at_diff.
      * rewrite at_diff; [reflexivity|]. intros ->. destruct fr; cbn [f_idx] in Hj; cn_in Hj; lia.
      * intros ->. rewrite dl_refl in Hj. lia.
Qed.

Lemma add_node_ok : forall t n (s : st) C x cur, root_of t = Some cur -> Inv s (plug C t) ->
  cnt x (ino (plug C t)) = 0%nat -> x < s_cap s ->
  c_left (s_at s x) = None -> c_right (s_at s x) = None ->
  srt s (ino t) -> (length (ino t) < n)%nat ->
  (add_node key cmp n cur x s = Val (false, s) /\ exists j, In j (ino t) /\ cmp (kd s x) (kd s j) = Eq) \/
  (exists s' C2, add_node key cmp n cur x s = Val (true, s') /\ plug C2 E = t /\ C2 <> [] /\
     Inv s' (plug (C2 ++ C) (T (c_color (s_at s x)) E x E)) /\ keeps s s' (x :: ino (plug C t)) /\
     (forall j, In j (lpart C2) -> cmp (kd s j) (kd s x) = Lt) /\
     (forall j, In j (rpart C2) -> cmp (kd s x) (kd s j) = Lt)).
Proof.
  induction t as [|c l IHl i r IHr]; intros n s C x cur E0 I Hx Hcap X2 X3 S Hn; [discriminate|].
  cbn in E0. injection E0 as <-. destruct n as [|n]; [lia|]. cbn [add_node].
  pose proof (node_at _ _ _ _ _ _ I) as (Hi & _ & _ & HL & HR).
  rewrite !st_data by assumption. fold (kd s x). fold (kd s i).
  cbn [ino] in S, Hn |- *. apply srt_T in S. destruct S as (Sl & Sr & Ll & Lr).
  rewrite app_length in Hn. cbn [length] in Hn.
  destruct (cmp (kd s x) (kd s i)) eqn:Ec.
  - left. split; [reflexivity|]. exists i. split; auto. apply in_or_app. right. now left.
  - rewrite st_left, HL by exact Hi. destruct (root_of l) as [j|] eqn:El.
    + assert (I' : Inv s (plug (FL c i r :: C) l)) by exact I.
      destruct (IHl n s (FL c i r :: C) x j eq_refl I' Hx Hcap X2 X3 Sl ltac:(lia))
        as [[E1 (z & Hz & Ez)]|(s' & C2 & E1 & E2 & E3 & E4 & E5 & E6 & E7)].
      * left. split; auto. exists z. split; auto. apply in_or_app. now left.
      * right. exists s', (C2 ++ [FL c i r]). split; [exact E1|]. split; [|split; [|split; [|split; [|split]]]].
        -- rewrite plug_app. cbn. now rewrite E2.
        -- destruct C2; discriminate.
        -- rewrite <- app_assoc. exact E4.
        -- exact E5.
        -- intros z Hz. apply E6. revert Hz. clear. induction C2 as [|[] C2 IH]; cbn [app lpart]; auto.
           intros Hz. apply in_app_or in Hz. apply in_or_app. tauto.
        -- intros z Hz. assert (In z (rpart C2 ++ i :: ino r)).
           { revert Hz. clear. induction C2 as [|[] C2 IH]; cbn [app rpart]; auto.
             - rewrite app_nil_r. auto.
             - intros [->|Hz]; [now left|]. right. apply in_app_or in Hz. rewrite <- app_assoc. apply in_or_app. tauto. }
           apply in_app_or in H. destruct H as [H|[<-|H]]; auto. eapply cmp_lt_lt; eauto.
    + destruct l; [|discriminate]. right.
      assert (I' : Inv s (plug (FL c i r :: C) E)) by exact I.
      destruct (hang_ok s (FL c i r :: C) _ x ltac:(discriminate) I' Hx Hcap eq_refl X2 X3 _ (ret true)) as (s' & cur & A & B & C0 & D0).
      cbn [par_of f_idx] in A. injection A as <-.
      exists s', [FL c i r]. split; [exact B|]. cbn [plug plug1 app lpart rpart].
      split; [reflexivity|]. split; [discriminate|]. split; [exact C0|]. split; [exact D0|]. split.
      * intros z [].
      * intros z [<-|Hz]; auto. rewrite app_nil_r in Hz. eapply cmp_lt_lt; eauto.
  - rewrite st_right, HR by exact Hi. apply (cmp_sym _ TO) in Ec. cbn in Ec. destruct (root_of r) as [j|] eqn:El.
    + assert (I' : Inv s (plug (FR c l i :: C) r)) by exact I.
      destruct (IHr n s (FR c l i :: C) x j eq_refl I' Hx Hcap X2 X3 Sr ltac:(lia))
        as [[E1 (z & Hz & Ez)]|(s' & C2 & E1 & E2 & E3 & E4 & E5 & E6 & E7)].
      * left. split; auto. exists z. split; auto. apply in_or_app. right. now right.
      * right. exists s', (C2 ++ [FR c l i]). split; [exact E1|]. split; [|split; [|split; [|split; [|split]]]].
        -- rewrite plug_app. cbn. now rewrite E2.
        -- destruct C2; discriminate.
        -- rewrite <- app_assoc. exact E4.
        -- exact E5.
        -- intros z Hz. assert (In z (lpart C2 ++ ino l ++ [i])).
           { revert Hz. clear. induction C2 as [|[] C2 IH]; cbn [app lpart]; auto.
             intros Hz. apply in_app_or in Hz. destruct Hz as [Hz|Hz]; [|apply in_or_app; left; apply in_or_app; tauto].
             specialize (IH Hz). apply in_app_or in IH. apply in_or_app. destruct IH; [left; apply in_or_app; tauto|tauto]. }
           apply in_app_or in H. destruct H as [H|H]; auto. apply in_app_or in H. destruct H as [H|[<-|[]]]; auto.
           eapply cmp_lt_lt; eauto.
        -- intros z Hz. apply E7. revert Hz. clear. induction C2 as [|[] C2 IH]; cbn [app rpart]; auto.
           intros [->|Hz]; [now left|]. right. apply in_app_or in Hz. apply in_or_app. tauto.
    + destruct r; [|discriminate]. right.
      assert (I' : Inv s (plug (FR c l i :: C) E)) by exact I.
      destruct (hang_ok s (FR c l i :: C) _ x ltac:(discriminate) I' Hx Hcap eq_refl X2 X3 _ (ret true)) as (s' & cur & A & B & C0 & D0).
      cbn [par_of f_idx] in A. injection A as <-.
      exists s', [FR c l i]. split; [exact B|]. cbn [plug plug1 app lpart rpart].
      split; [reflexivity|]. split; [discriminate|]. split; [exact C0|]. split; [exact D0|]. split.
      * intros z Hz. apply in_app_or in Hz. destruct Hz as [Hz|[<-|[]]]; auto. eapply cmp_lt_lt; eauto.
      * intros z [].
Qed.

(* ------------------------------------------------------------------ *)
(* The outcome of add *)

Definition dup (s s' : st) (t : tree) (F L : list N) (d : D) (i : N) : Prop :=
  WF s' t F (i :: L) /\ s_cap s' = s_cap s /\
  (forall j, In j (ino t) -> c_data (s_at s' j) = c_data (s_at s j)) /\
  exists j, In j (ino t) /\ cmp (key d) (kd s j) = Eq.
Definition added (s s' : st) (t t' : tree) (F L : list N) (d : D) (i : N) : Prop :=
  WF s' t' F L /\ s_cap s' = s_cap s /\
  (forall j, In j (ino t) -> c_data (s_at s' j) = c_data (s_at s j)) /\ c_data (s_at s' i) = d /\
  (forall j, In j (ino t) -> cmp (key d) (kd s j) <> Eq) /\
  exists a b, ino t = a ++ b /\ ino t' = a ++ i :: b.

Lemma wf_free (s : st) t F L : WF s t F L -> (F = [] <-> s_len s = s_cap s).
Proof.
  intros W. pose proof (w_total _ _ _ _ W). pose proof (w_len _ _ _ _ W). split.
  - intros ->. cbn in H. lia.
  - intros HH. destruct F; auto. cbn in H. lia.
Qed.

Lemma cnt_nodup_tail i F l : nodup (i :: F ++ l) -> cnt i F = 0%nat /\ cnt i l = 0%nat.
Proof. intros H. specialize (H i). rewrite cnt_cons, cnt_app, dl_refl in H. lia. Qed.

(* After taking slot i and painting it. *)
Lemma taken_dup (s s1 s' : st) t i F L d : WF s t (i :: F) L -> taken s s1 i d ->
  (forall j, j <> i -> s_at s' j = s_at s1 j) -> s_cap s' = s_cap s1 -> s_len s' = s_len s1 ->
  s_avail s' = s_avail s1 -> s_root s' = s_root s1 ->
  (c_parent (s_at s' i) = None /\ c_left (s_at s' i) = None /\ c_right (s_at s' i) = None) ->
  WF s' t F (i :: L) /\ (forall j, In j (ino t) -> c_data (s_at s' j) = c_data (s_at s j)).
Proof.
  intros W TK O1 O2 O3 O4 O5 O6. destruct TK as [A1 A2 A3 A4 A5 A6 A7 A8 A9].
  destruct W as [I CH ND BD TT LL SS WL].
  destruct (cnt_nodup_tail _ _ _ ND) as [N1 N2]. rewrite cnt_app in N2.
  assert (SAME : forall j, j <> i -> s_at s' j = s_at s j) by (intros; rewrite O1, A5; auto).
  assert (DD : forall j, In j (ino t) -> c_data (s_at s' j) = c_data (s_at s j)).
  { intros j Hj. rewrite SAME; [reflexivity|]. intros ->. apply In_cnt in Hj. lia. }
  split; [|exact DD]. constructor.
  - destruct I as [R ND0 BD0 RT]. constructor; auto.
    + eapply rep_frame; [|exact R]. intros j Hj. apply SAME. intros ->. lia.
    + intros z Hz. rewrite O2, A1. auto.
    + now rewrite O5, A4.
  - cbn [chain] in CH. destruct CH as [_ CH]. rewrite O4, A3.
    eapply chain_frame; [|exact CH]. intros j Hj. rewrite SAME; auto. intros ->. apply In_cnt in Hj. lia.
  - intros z. specialize (ND z). cbn [app] in ND. rewrite cnt_cons, !cnt_app in ND. rewrite !cnt_app, cnt_cons. lia.
  - intros z Hz. rewrite O2, A1. apply BD. cbn [app]. apply in_app_or in Hz. destruct Hz as [Hz|[<-|Hz]].
    + right. apply in_or_app. now left.
    + now left.
    + right. apply in_or_app. now right.
  - rewrite O2, A1. cbn [length] in *. lia.
  - rewrite O3, A2, LL. cbn [length]. lia.
  - eapply srt_ext; [|exact SS]. exact DD.
  - intros z [<-|Hz]; [exact O6|]. rewrite SAME by (intros ->; apply In_cnt in Hz; lia). apply WL, Hz.
Qed.

Lemma length_ino_perm (a : list N) i b : length (a ++ i :: b) = S (length (a ++ b)).
Proof. rewrite !app_length. cbn. lia. Qed.

(* The slot i moves from the lost list into the tree. *)
Lemma wf_in (s s' : st) t t' F L i a b : WF s t F (i :: L) -> Inv s' t' -> keeps s s' (i :: ino t) ->
  ino t = a ++ b -> ino t' = a ++ i :: b -> srt s (a ++ i :: b) -> WF s' t' F L.
Proof.
  intros [I CH ND BD TT LL SS WL] I' KP E1 E2 S2. constructor; auto.
  - rewrite (k_avail _ _ _ KP). eapply chain_frame; [|exact CH]. intros j Hj. rewrite (k_out _ _ _ KP); auto.
    apply In_cnt in Hj. specialize (ND j). rewrite !cnt_app, cnt_cons in ND. rewrite cnt_cons. lia.
  - intros z. specialize (ND z). rewrite E2. rewrite E1 in ND. repeat (rewrite ?cnt_app, ?cnt_cons in * ). lia.
  - intros z Hz. rewrite (k_cap _ _ _ KP). apply BD. apply in_app_or in Hz. apply in_or_app. cbn. tauto.
  - rewrite (k_cap _ _ _ KP), E2, length_ino_perm, <- E1. cbn [length] in TT. lia.
  - rewrite (k_len _ _ _ KP), E2, length_ino_perm, <- E1. rewrite LL. cbn [length]. lia.
  - rewrite E2. eapply srt_ext; [|exact S2]. intros j _. apply (k_data _ _ _ KP).
  - intros z Hz. rewrite (k_out _ _ _ KP).
    + apply WL. now right.
    + apply In_cnt in Hz. specialize (ND z). rewrite !cnt_app, cnt_cons in ND. rewrite cnt_cons. lia.
Qed.

Lemma srt_insert (s : st) a x b : srt s (a ++ b) -> (forall j, In j a -> cmp (kd s j) (kd s x) = Lt) ->
  (forall j, In j b -> cmp (kd s x) (kd s j) = Lt) -> srt s (a ++ x :: b).
Proof.
  intros S A B. apply srt_app in S. destruct S as (Sa & Sb & AB). apply srt_app. split; [auto|]. split.
  - apply srt_cons. auto.
  - intros i j Hi [<-|Hj]; auto.
Qed.

Lemma rbt_add_ok (s : st) t F L d : WF s t F L -> col t = true ->
  (F = [] /\ rbt_add key cmp d s = Val (inr OutOfSpace, s)) \/
  (exists i F', F = i :: F' /\
    ((exists s', rbt_add key cmp d s = Val (inr AlreadyExists, s') /\ dup s s' t F' L d i) \/
     (exists s' t', rbt_add key cmp d s = Val (inl i, s') /\ added s s' t t' F' L d i /\ col t' = true /\
        (forall m, rb true m t -> exists m', rb true m' t')))).
Proof.
  intros W Hc. destruct F as [|i F].
  - left. split; [reflexivity|]. assert (E1 : storage_add d s = Val (None, s)).
    { apply storage_add_none. right. now apply (wf_free _ _ _ _ W). }
    unfold rbt_add. rewrite (st_run _ _ _ _ _ E1). reflexivity.
  - right. exists i, F. split; [reflexivity|].
    pose proof (w_chain _ _ _ _ W) as CH. cbn [chain] in CH. destruct CH as [AV _].
    assert (Hi : i < s_cap s) by (apply (w_bnd _ _ _ _ W); now left).
    assert (NF : s_len s <> s_cap s) by (intros HH; apply (wf_free _ _ _ _ W) in HH; discriminate).
    destruct (storage_add_ok s d i AV Hi NF) as (s1 & E1 & TK).
    set (s2 := upds s1 i (fun c => with_color c RED)).
    assert (W2 : WF s2 t F (i :: L) /\ (forall j, In j (ino t) -> c_data (s_at s2 j) = c_data (s_at s j))).
    { eapply taken_dup; [exact W|exact TK|..]; try reflexivity.
      - intros j Hj. apply at_diff, Hj.
      - unfold s2. rewrite at_same. destruct TK as [A1 A2 A3 A4 A5 A6 A7 A8 A9]. repeat split; assumption. }
    destruct W2 as [W2 D2].
    assert (CX : cnt i (ino t) = 0%nat).
    { pose proof (w_nd _ _ _ _ W) as ND. destruct (cnt_nodup_tail _ _ _ ND) as [_ N2]. rewrite cnt_app in N2. lia. }
    assert (Hi2 : i < s_cap s2) by (cbn; rewrite (tk_cap _ _ _ _ TK); exact Hi).
    assert (XD : c_data (s_at s2 i) = d) by (unfold s2; rewrite at_same; apply (tk_data _ _ _ _ TK)).
    pose proof (w_inv _ _ _ _ W2) as I2.
    eassert (RUN : rbt_add key cmp d s = _).
    { unfold rbt_add. rewrite (st_run _ _ _ _ _ E1). unfold n_set_color at 1.
      rewrite st_modify by (rewrite (tk_cap _ _ _ _ TK); exact Hi). fold s2.
      rewrite st_get_root, (i_root _ _ I2). reflexivity. }
    rewrite RUN. clear RUN E1.
    destruct (root_of t) as [root|] eqn:Er.
    + assert (F2 : (length (ino t) < fuel s2)%nat) by apply fuel_size, I2.
      destruct (add_node_ok t (fuel s2) s2 [] i root Er I2 CX Hi2) as [[E1 (j & Hj & Ej)]|(s3 & C2 & E1 & E2 & E3 & E4 & E5 & E6 & E7)]; auto.
      { unfold s2. rewrite at_same. apply (tk_left _ _ _ _ TK). }
      { unfold s2. rewrite at_same. apply (tk_right _ _ _ _ TK). }
      { apply (w_srt _ _ _ _ W2). }
      * left. assert (E1' : with_fuel (fun n => add_node key cmp n root i) s2 = Val (false, s2)) by exact E1.
        rewrite (st_run _ _ _ _ _ E1'). exists s2. split; [reflexivity|].
        split; [exact W2|]. split; [apply (tk_cap _ _ _ _ TK)|]. split; [exact D2|].
        exists j. split; auto. unfold Lookup.kd in *. rewrite XD, D2 in Ej by exact Hj. exact Ej.
      * right. assert (E1' : with_fuel (fun n => add_node key cmp n root i) s2 = Val (true, s3)) by exact E1.
        rewrite (st_run _ _ _ _ _ E1'). rewrite app_nil_r in E4. cbn [plug] in E5.
        assert (CO : c_color (s_at s2 i) = RED) by (unfold s2; rewrite at_same; reflexivity).
        rewrite CO in E4.
        destruct (fixup_add_ok (fuel s3) s3 C2 RED E i E (fuel_ctx _ _ _ E4) E4) as (s4 & t' & E8 & I4 & IN4 & CT & K4 & RB4).
        { right. rewrite <- E2, col_plug in Hc. exact Hc. }
        assert (E8' : with_fuel (fun n => fixup_add n i) s3 = Val (tt, s4)) by exact E8.
        rewrite (st_run _ _ _ _ _ E8'). exists s4, t'. split; [reflexivity|].
        assert (IT : ino t = lpart C2 ++ rpart C2) by (rewrite <- E2, ino_plug; reflexivity).
        assert (IT' : ino t' = lpart C2 ++ i :: rpart C2) by (rewrite IN4, ino_plug; reflexivity).
        assert (K24 : keeps s2 s4 (i :: ino t)).
        { eapply keeps_trans; [|exact E5|exact K4]. intros z. rewrite IT, ino_plug. cbn [ino app].
          rewrite !cnt_cons, !cnt_app, cnt_cons. lia. }
        split; [|split; [exact CT|]].
        -- split; [|split; [|split; [|split; [|split]]]].
           ++ eapply wf_in; [exact W2|exact I4|exact K24|exact IT|exact IT'|].
              apply srt_insert; auto. rewrite <- IT. apply (w_srt _ _ _ _ W2).
           ++ rewrite (k_cap _ _ _ K24). apply (tk_cap _ _ _ _ TK).
           ++ intros j Hj. rewrite (k_data _ _ _ K24). auto.
           ++ rewrite (k_data _ _ _ K24). exact XD.
           ++ intros j Hj. rewrite IT in Hj. apply in_app_or in Hj.
              assert (KX : kd s2 i = key d) by (unfold Lookup.kd; now rewrite XD).
              assert (KJ : kd s2 j = kd s j).
              { unfold Lookup.kd. rewrite D2; [reflexivity|]. rewrite IT. apply in_or_app. tauto. }
              destruct Hj as [Hj|Hj].
              ** specialize (E6 j Hj). rewrite KX, KJ in E6. apply (cmp_sym _ TO) in E6. rewrite E6. discriminate.
              ** specialize (E7 j Hj). rewrite KX, KJ in E7. rewrite E7. discriminate.
           ++ exists (lpart C2), (rpart C2). split; auto.
        -- intros m Hm. rewrite <- E2 in Hm. apply rb_unplug in Hm. destruct Hm as (p & n & c' & HC & Ht & Hp).
           inversion Ht; subst. eapply RB4; [|exact HC]. apply rb_R; constructor.
    + destruct t; [|discriminate]. right. unfold n_set_color. rewrite st_modify by exact Hi2. rewrite st_set_root.
      set (s4 := with_root (upds s2 i (fun c => with_color c BLACK)) (Some i)).
      exists s4, (T true E i E). split; [reflexivity|].
      assert (I4 : Inv s4 (T true E i E)).
      { constructor.
        - cbn [rep root_of]. unfold s4. rewrite at_root, at_same. unfold s2. rewrite at_same. cbn.
          destruct TK as [A1 A2 A3 A4 A5 A6 A7 A8 A9]. repeat split; assumption.
        - intros z. cbn. unfold dl. destruct (i =? z); lia.
        - intros z. cbn [ino app]. rewrite cnt_cons, cnt_nil. unfold dl. destruct (N.eqb_spec i z) as [Eiz|?]; [|lia].
          intros _. rewrite <- Eiz. exact Hi2.
        - reflexivity. }
      assert (K24 : keeps s2 s4 [i]).
      { constructor; try reflexivity.
        - intros j. unfold s4. rewrite at_root. now rewrite data_upds.
        - intros j Hj. unfold s4. rewrite at_root. apply at_diff. intros ->. rewrite cnt_cons, dl_refl in Hj. lia. }
      split; [|split; [reflexivity|]].
      * split; [|split; [|split; [|split; [|split]]]].
        -- eapply (wf_in _ _ _ _ _ _ i [] []); [exact W2|exact I4|exact K24|reflexivity|reflexivity|].
           apply srt_cons. split; [constructor|intros j []].
        -- apply (tk_cap _ _ _ _ TK).
        -- intros j [].
        -- rewrite (k_data _ _ _ K24). exact XD.
        -- intros j [].
        -- exists [], []. now split.
      * intros m Hm. exists 1%nat. econstructor; constructor.
Qed.

Lemma bst_add_ok (s : st) t F L d : WF s t F L ->
  (F = [] /\ bst_add key cmp d s = Val (inr OutOfSpace, s)) \/
  (exists i F', F = i :: F' /\
    ((exists s', bst_add key cmp d s = Val (inr AlreadyExists, s') /\ dup s s' t F' L d i) \/
     (exists s' t', bst_add key cmp d s = Val (inl i, s') /\ added s s' t t' F' L d i))).
Proof.
  intros W. destruct F as [|i F].
  - left. split; [reflexivity|]. assert (E1 : storage_add d s = Val (None, s)).
    { apply storage_add_none. right. now apply (wf_free _ _ _ _ W). }
    unfold bst_add. rewrite (st_run _ _ _ _ _ E1). reflexivity.
  - right. exists i, F. split; [reflexivity|].
    pose proof (w_chain _ _ _ _ W) as CH. cbn [chain] in CH. destruct CH as [AV _].
    assert (Hi : i < s_cap s) by (apply (w_bnd _ _ _ _ W); now left).
    assert (NF : s_len s <> s_cap s) by (intros HH; apply (wf_free _ _ _ _ W) in HH; discriminate).
    destruct (storage_add_ok s d i AV Hi NF) as (s2 & E1 & TK).
    assert (W2 : WF s2 t F (i :: L) /\ (forall j, In j (ino t) -> c_data (s_at s2 j) = c_data (s_at s j))).
    { eapply taken_dup; [exact W|exact TK|..]; try reflexivity.
      destruct TK as [A1 A2 A3 A4 A5 A6 A7 A8 A9]. repeat split; assumption. }
    destruct W2 as [W2 D2].
    assert (CX : cnt i (ino t) = 0%nat).
    { pose proof (w_nd _ _ _ _ W) as ND. destruct (cnt_nodup_tail _ _ _ ND) as [_ N2]. rewrite cnt_app in N2. lia. }
    assert (Hi2 : i < s_cap s2) by (rewrite (tk_cap _ _ _ _ TK); exact Hi).
    assert (XD : c_data (s_at s2 i) = d) by apply (tk_data _ _ _ _ TK).
    pose proof (w_inv _ _ _ _ W2) as I2.
    eassert (RUN : bst_add key cmp d s = _).
    { unfold bst_add. rewrite (st_run _ _ _ _ _ E1).
      rewrite st_get_root, (i_root _ _ I2). reflexivity. }
    rewrite RUN. clear RUN E1.
    destruct (root_of t) as [root|] eqn:Er.
    + assert (F2 : (length (ino t) < fuel s2)%nat) by apply fuel_size, I2.
      destruct (add_node_ok t (fuel s2) s2 [] i root Er I2 CX Hi2) as [[E1 (j & Hj & Ej)]|(s3 & C2 & E1 & E2 & E3 & E4 & E5 & E6 & E7)]; auto.
      { apply (tk_left _ _ _ _ TK). }
      { apply (tk_right _ _ _ _ TK). }
      { apply (w_srt _ _ _ _ W2). }
      * left. assert (E1' : with_fuel (fun n => add_node key cmp n root i) s2 = Val (false, s2)) by exact E1.
        rewrite (st_run _ _ _ _ _ E1'). exists s2. split; [reflexivity|].
        split; [exact W2|]. split; [apply (tk_cap _ _ _ _ TK)|]. split; [exact D2|].
        exists j. split; auto. unfold Lookup.kd in *. rewrite XD, D2 in Ej by exact Hj. exact Ej.
      * right. assert (E1' : with_fuel (fun n => add_node key cmp n root i) s2 = Val (true, s3)) by exact E1.
        rewrite (st_run _ _ _ _ _ E1'). rewrite app_nil_r in E4. cbn [plug] in E5.
        exists s3, (plug C2 (T (c_color (s_at s2 i)) E i E)). split; [reflexivity|].
        assert (IT : ino t = lpart C2 ++ rpart C2) by (rewrite <- E2, ino_plug; reflexivity).
        assert (IT' : ino (plug C2 (T (c_color (s_at s2 i)) E i E)) = lpart C2 ++ i :: rpart C2) by (rewrite ino_plug; reflexivity).
        split; [|split; [|split; [|split; [|split]]]].
        -- eapply wf_in; [exact W2|exact E4|exact E5|exact IT|exact IT'|].
           apply srt_insert; auto. rewrite <- IT. apply (w_srt _ _ _ _ W2).
        -- rewrite (k_cap _ _ _ E5). apply (tk_cap _ _ _ _ TK).
        -- intros j Hj. rewrite (k_data _ _ _ E5). auto.
        -- rewrite (k_data _ _ _ E5). exact XD.
        -- intros j Hj. rewrite IT in Hj. apply in_app_or in Hj.
           assert (KX : kd s2 i = key d) by (unfold Lookup.kd; now rewrite XD).
           assert (KJ : kd s2 j = kd s j).
           { unfold Lookup.kd. rewrite D2; [reflexivity|]. rewrite IT. apply in_or_app. tauto. }
           destruct Hj as [Hj|Hj].
           ** specialize (E6 j Hj). rewrite KX, KJ in E6. apply (cmp_sym _ TO) in E6. rewrite E6. discriminate.
           ** specialize (E7 j Hj). rewrite KX, KJ in E7. rewrite E7. discriminate.
        -- exists (lpart C2), (rpart C2). split; auto.
    + destruct t; [|discriminate]. right. rewrite st_set_root.
      set (s4 := with_root s2 (Some i)).
      exists s4, (T (c_color (s_at s2 i)) E i E). split; [reflexivity|].
      assert (I4 : Inv s4 (T (c_color (s_at s2 i)) E i E)).
      { constructor.
        - cbn [rep root_of]. unfold s4. rewrite at_root.
          destruct TK as [A1 A2 A3 A4 A5 A6 A7 A8 A9]. repeat split; assumption.
        - intros z. cbn. unfold dl. destruct (i =? z); lia.
        - intros z. cbn [ino app]. rewrite cnt_cons, cnt_nil. unfold dl. destruct (N.eqb_spec i z) as [Eiz|?]; [|lia].
          intros _. rewrite <- Eiz. exact Hi2.
        - reflexivity. }
      assert (K24 : keeps s2 s4 [i]) by (constructor; reflexivity).
      split; [|split; [|split; [|split; [|split]]]].
      * eapply (wf_in _ _ _ _ _ _ i [] []); [exact W2|exact I4|exact K24|reflexivity|reflexivity|].
        apply srt_cons. split; [constructor|intros j []].
      * apply (tk_cap _ _ _ _ TK).
      * intros j [].
      * exact XD.
      * intros j [].
      * exists [], []. now split.
Qed.

(* ------------------------------------------------------------------ *)
(* Deletion *)

Lemma storage_delete_ok (s : st) i a : i < s_cap s -> s_len s <> 0 -> s_avail s = a ->
  (forall r, a = Some r -> r < s_cap s /\ r <> i) ->
  exists s', storage_delete i s = Val (tt, s') /\
    s_cap s' = s_cap s /\ s_len s' = s_len s - 1 /\ s_avail s' = Some i /\ s_root s' = s_root s /\
    c_right (s_at s' i) = a /\
    (forall j, j <> i -> c_right (s_at s' j) = c_right (s_at s j)) /\
    (forall j, j <> i -> Some j <> a -> s_at s' j = s_at s j) /\
    (forall j, c_data (s_at s' j) = c_data (s_at s j)).
Proof.
  intros Hi Hl Ha Hr. unfold storage_delete, n_set_parent, n_set_left.
  rewrite !st_modify by exact Hi. unfold mbind at 1. cbn [s_avail upds with_at]. rewrite Ha.
  assert (Hl' : s_len s =? 0 = false) by (apply N.eqb_neq; exact Hl).
  destruct a as [r|].
  - destruct (Hr r eq_refl) as [Hrc Hri].
    rewrite st_bind. unfold n_set_right. rewrite st_modify by exact Hi.
    rewrite st_modify by exact Hrc. cbn [s_len upds with_at]. rewrite Hl'.
    eexists. split; [reflexivity|]. repeat split; try reflexivity.
    + cbn. unfold upd. rewrite (proj2 (N.eqb_neq i r)) by congruence. now rewrite N.eqb_refl.
    + intros j Hj. cbn. unfold upd. apply N.eqb_neq in Hj. rewrite !Hj. destruct (j =? r); reflexivity.
    + intros j Hj Hjr. cbn. unfold upd. apply N.eqb_neq in Hj. rewrite !Hj.
      destruct (N.eqb_spec j r); [congruence|reflexivity].
    + intros j. cbn. unfold upd. destruct (j =? r), (j =? i); reflexivity.
  - unfold n_set_right. rewrite st_modify by exact Hi. cbn [s_len upds with_at]. rewrite Hl'.
    eexists. split; [reflexivity|]. repeat split; try reflexivity.
    + cbn. unfold upd. now rewrite !N.eqb_refl.
    + intros j Hj. cbn. unfold upd. apply N.eqb_neq in Hj. now rewrite !Hj.
    + intros j Hj Hjr. cbn. unfold upd. apply N.eqb_neq in Hj. now rewrite !Hj.
    + intros j. cbn. unfold upd. destruct (j =? i); reflexivity.
Qed.

Definition dropped (s s' : st) (t t' : tree) (F L : list N) (i : N) : Prop :=
  WF s' t' (i :: F) L /\ s_cap s' = s_cap s /\
  (forall j, c_data (s_at s' j) = c_data (s_at s j)) /\
  exists a b, ino t = a ++ i :: b /\ ino t' = a ++ b.

Lemma srt_remove (s : st) a x b : srt s (a ++ x :: b) -> srt s (a ++ b).
Proof.
  intros S. apply srt_app in S. destruct S as (Sa & Sb & AB). apply srt_cons in Sb. destruct Sb as [Sb _].
  apply srt_app. split; [auto|]. split; auto. intros i j Hi Hj. apply AB; auto. now right.
Qed.

Lemma drop_ok (s : st) t F L C c l i r s1 t' : WF s t F L -> t = plug C (T c l i r) ->
  removed s s1 C l r t t' ->
  exists s', storage_delete i s1 = Val (tt, s') /\ dropped s s' t t' F L i.
Proof.
  intros W Et (I1 & IN1 & K1). pose proof W as [I CH ND BD TT LL SS WL].
  assert (IT : ino t = (lpart C ++ ino l) ++ i :: (ino r ++ rpart C)).
  { rewrite Et, ino_plug. cbn [ino]. rewrite <- !app_assoc. reflexivity. }
  assert (IT' : ino t' = (lpart C ++ ino l) ++ (ino r ++ rpart C)).
  { rewrite IN1, <- !app_assoc. reflexivity. }
  assert (CI : cnt i (ino t) = 1%nat /\ cnt i F = 0%nat /\ cnt i L = 0%nat).
  { specialize (ND i). rewrite !cnt_app in ND.
    assert (0 < cnt i (ino t))%nat by (apply In_cnt; rewrite IT; apply in_or_app; right; now left). lia. }
  assert (Hi : i < s_cap s) by (apply (i_bnd _ _ I); lia).
  assert (HL : s_len s <> 0).
  { rewrite LL, IT, app_length. cbn [length]. lia. }
  assert (HA : forall r0, s_avail s1 = Some r0 -> In r0 F).
  { rewrite (k_avail _ _ _ K1). intros r0 H. destruct F as [|f F]; cbn [chain] in CH; [congruence|].
    destruct CH as [CH _]. left. congruence. }
  destruct (storage_delete_ok s1 i (s_avail s1)) as (s' & E1 & A1 & A2 & A3 & A4 & A5 & A6 & A7 & A8).
  { rewrite (k_cap _ _ _ K1). exact Hi. }
  { rewrite (k_len _ _ _ K1). exact HL. }
  { reflexivity. }
  { intros r0 Hr. apply HA in Hr. split.
    - rewrite (k_cap _ _ _ K1). apply BD. apply in_or_app. now left.
    - intros ->. apply In_cnt in Hr. lia. }
  exists s'. split; [exact E1|].
  assert (DD : forall j, c_data (s_at s' j) = c_data (s_at s j)).
  { intros j. rewrite A8. apply (k_data _ _ _ K1). }
  assert (IN2 : forall j, In j (ino t') -> j <> i /\ In j (ino t)).
  { intros j Hj. split.
    - intros ->. apply In_cnt in Hj. rewrite IT' in Hj. destruct CI as [CI _]. rewrite IT in CI.
      rewrite !cnt_app, cnt_cons, !cnt_app, dl_refl in CI. rewrite !cnt_app in Hj. lia.
    - rewrite IT. rewrite IT' in Hj. apply in_app_or in Hj. apply in_or_app. cbn. tauto. }
  assert (NF : forall j, In j (ino t) -> ~ In j F).
  { intros j H1 H2. apply In_cnt in H1, H2. specialize (ND j). rewrite !cnt_app in ND. lia. }
  split; [|split; [rewrite A1; apply (k_cap _ _ _ K1)|split; [exact DD|]]].
  - constructor.
    + destruct I1 as [R1 ND1 BD1 RT1]. constructor; auto.
      * eapply rep_frame; [|exact R1]. intros j Hj. apply In_cnt in Hj. destruct (IN2 j Hj) as [N1 N2].
        apply A7; auto. intros Hs. symmetry in Hs. apply HA in Hs. exact (NF j N2 Hs).
      * intros z Hz. rewrite A1. auto.
      * now rewrite A4.
    + cbn [chain]. split; [exact A3|]. rewrite A5, (k_avail _ _ _ K1).
      eapply chain_frame; [|exact CH]. intros j Hj. rewrite A6.
      * f_equal. apply (k_out _ _ _ K1). apply In_cnt in Hj. specialize (ND j). rewrite !cnt_app in ND. lia.
      * intros ->. apply In_cnt in Hj. lia.
    + intros z. specialize (ND z). rewrite IT in ND. rewrite IT'. cbn [app].
      repeat (rewrite ?cnt_app, ?cnt_cons in * ). lia.
    + intros z Hz. rewrite A1, (k_cap _ _ _ K1). cbn [app] in Hz. destruct Hz as [<-|Hz]; [exact Hi|]. apply BD, Hz.
    + rewrite A1, (k_cap _ _ _ K1). rewrite IT, app_length in TT. cbn [length] in *. rewrite IT', app_length. lia.
    + rewrite A2, (k_len _ _ _ K1), LL, IT, IT', !app_length. cbn [length]. rewrite ?app_length. lia.
    + rewrite IT'. apply (srt_ext s s'); [intros; apply DD|]. rewrite IT in SS. eapply srt_remove, SS.
    + intros z Hz. assert (NZ : cnt z (ino t) = 0%nat /\ cnt z F = 0%nat).
      { apply In_cnt in Hz. specialize (ND z). rewrite !cnt_app in ND. lia. }
      rewrite A7.
      * rewrite (k_out _ _ _ K1) by tauto. apply WL, Hz.
      * intros ->. lia.
      * intros Hs. symmetry in Hs. apply HA in Hs. apply In_cnt in Hs. lia.
  - exists (lpart C ++ ino l), (ino r ++ rpart C). split; auto.
Qed.

End Store.
