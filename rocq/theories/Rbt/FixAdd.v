(* Rebalancing after an insertion. *)
From Coq Require Import NArith List Bool Lia Permutation.
From Verif Require Import Base.Prelude Rbt.Model Rbt.Tree Rbt.Heap Rbt.Rot.
Import ListNotations.
Local Open Scope N_scope.

Definition f_col fr := match fr with FL c _ _ => c | FR c _ _ => c end.
Definition f_sib fr := match fr with FL _ _ r => r | FR _ l _ => l end.
Fixpoint ctop (C : ctx) (d : bool) : bool := match C with [] => d | fr :: C => ctop C (f_col fr) end.
Lemma col_plug : forall C t, col (plug C t) = ctop C (col t).
Proof. induction C as [|[c i r|c l i] C IH]; intros t; cbn; auto; now rewrite IH. Qed.

(* Red-black trees: [rb c n t] says t has root colour c, black height n and
   no red node with a red child; [rbc C p n] says the same of a tree with a
   hole for a tree of black height n under a parent of colour p. *)
Inductive rb : bool -> nat -> tree -> Prop :=
| rb_E : rb true 0 E
| rb_B c1 c2 n l i r : rb c1 n l -> rb c2 n r -> rb true (S n) (T true l i r)
| rb_R n l i r : rb true n l -> rb true n r -> rb false n (T false l i r).
Inductive rbc : ctx -> bool -> nat -> Prop :=
| rbc_nil n : rbc [] true n
| rbc_BL c p n i r C : rb c n r -> rbc C p (S n) -> rbc (FL true i r :: C) true n
| rbc_BR c p n l i C : rb c n l -> rbc C p (S n) -> rbc (FR true l i :: C) true n
| rbc_RL n i r C : rb true n r -> rbc C true n -> rbc (FL false i r :: C) false n
| rbc_RR n l i C : rb true n l -> rbc C true n -> rbc (FR false l i :: C) false n.

Lemma rb_plug : forall C p n c t, rbc C p n -> rb c n t -> (p = true \/ c = true) ->
  exists c' m, rb c' m (plug C t).
Proof.
  induction C as [|fr C IH]; intros p n c t HC Ht Hpc.
  - cbn. eauto.
  - inversion HC; subst; cbn [plug plug1].
    + eapply IH; [eassumption|econstructor; eassumption|auto].
    + eapply IH; [eassumption|econstructor; eassumption|auto].
    + destruct Hpc as [?| ->]; [discriminate|].
      eapply IH; [eassumption|apply rb_R; eassumption|auto].
    + destruct Hpc as [?| ->]; [discriminate|].
      eapply IH; [eassumption|apply rb_R; eassumption|auto].
Qed.

(* The inverse: a red-black tree seen through a context. *)
Lemma rb_unplug : forall C t c m, rb c m (plug C t) ->
  exists p n c', rbc C p n /\ rb c' n t /\ (p = true \/ c' = true).
Proof.
  induction C as [|fr C IH]; intros t c m H.
  - cbn in H. exists true, m, c. repeat split; auto. constructor.
  - cbn [plug] in H. apply IH in H. destruct H as (p & n & c' & HC & Ht & Hp).
    destruct fr as [c0 i r|c0 l i]; cbn [plug1] in Ht; inversion Ht; subst.
    + exists true, n0, c1. repeat split; auto. econstructor; eassumption.
    + destruct Hp as [->|?]; [|discriminate].
      exists false, n, true. repeat split; auto. econstructor; eassumption.
    + exists true, n0, c2. repeat split; auto. econstructor; eassumption.
    + destruct Hp as [->|?]; [|discriminate].
      exists false, n, true. repeat split; auto. econstructor; eassumption.
Qed.

Section FixAdd.
Context {D : Type}.
Notation st := (@st D).

Lemma st_run {A B} (m : @mon D A) (k : A -> @mon D B) s a s' : m s = Val (a, s') -> mbind m k s = k a s'.
Proof. intros H. unfold mbind. now rewrite H. Qed.

Lemma inv_peq (s : st) fr C c l x r : Inv s (plug (fr :: C) (T c l x r)) ->
  peq (Some x) (root_of (f_sib fr)) = false.
Proof.
  intros [_ ND _ _]. destruct fr as [c0 i0 [|? ? j ?]|c0 [|? ? j ?] i0]; cbn [f_sib root_of]; auto;
  count_out ND; apply peq_diff; ne ND.
Qed.

Lemma sibling_ok (s : st) fr C c l x r : Inv s (plug (fr :: C) (T c l x r)) ->
  sibling x s = Val (root_of (f_sib fr), s).
Proof.
  intros I. pose proof (inv_peq _ _ _ _ _ _ _ I) as PQ.
  destruct I as [R ND BD RT].
  assert (Hx : x < s_cap s) by (apply BD; cn_goal; destruct fr; cn_goal; lia).
  assert (Hp : f_idx fr < s_cap s) by (apply BD; destruct fr; cbn [f_idx]; cn_goal; lia).
  rewrite rep_plug in R. cbn [rep root_of] in R.
  unfold sibling. destruct R as [RC RR].
  destruct fr as [c0 i0 r0|c0 l0 i0]; cbn [repc par_of f_idx f_sib] in *;
    destruct RC as (P1 & P2 & P3 & P4 & RP & RC);
    destruct RR as (X1 & X2 & X3 & X4 & RA & RB); exec; reflexivity.
Qed.

(* Links of a node seen through a context. *)
Lemma node_at (s : st) C c l x r : Inv s (plug C (T c l x r)) ->
  x < s_cap s /\ c_color (s_at s x) = c /\ c_parent (s_at s x) = par_of C /\
  c_left (s_at s x) = root_of l /\ c_right (s_at s x) = root_of r.
Proof.
  intros [R ND BD RT]. split; [apply BD; cn_goal; lia|].
  apply rep_plug in R. destruct R as [_ R]. cbn [rep] in R. tauto.
Qed.

End FixAdd.

(* Learn the links of the node at the top of each listed context. *)
Ltac know I := let Q := fresh "Q" in pose proof (node_at _ _ _ _ _ _ I) as Q;
  cbn [par_of f_idx plug plug1 root_of f_sib] in Q; destruct Q as (? & ? & ? & ? & ?).
Lemma rb_col c n t : rb c n t -> col t = c.
Proof. destruct 1; reflexivity. Qed.
Lemma rb_red_inv n l x c r : rb false n (T c l x r) -> c = false /\ rb true n l /\ rb true n r.
Proof. inversion 1; subst; auto. Qed.
Lemma rb_plug_true C p n c t : rbc C p n -> rb c n t -> (p = true \/ c = true) -> col (plug C t) = true ->
  exists m, rb true m (plug C t).
Proof.
  intros HC Ht Hp Hc. destruct (rb_plug C p n c t HC Ht Hp) as (c' & m & H).
  pose proof (rb_col _ _ _ H) as E0. rewrite Hc in E0. subst c'. eauto.
Qed.

Ltac go L I1 K1 := let s1 := fresh "s" in let E1 := fresh "E" in
  destruct L as (s1 & E1 & I1 & K1); repeat first [rewrite st_bind | rewrite st_ret]; first [rewrite (st_run _ _ _ _ _ E1) | rewrite E1]; clear E1.
Ltac kt := let z := fresh in
  match goal with
  | K : keeps ?a ?b _ |- keeps ?a ?b _ => eapply keeps_incl; [|exact K]; intros z; cn_goal; clear; lia
  | K : keeps ?a ?b _ |- keeps ?a ?c _ =>
      eapply (keeps_trans a b c); [|eapply keeps_incl; [|exact K]|]; [reflexivity|intros z; cn_goal; clear; lia|]; clear K
  end.
Ltac ino_eq := rewrite ?ino_plug; cbn [ino lpart rpart plug plug1]; rewrite ?ino_plug; cbn [ino lpart rpart];
  repeat first [rewrite <- app_assoc | progress cbn [app]]; reflexivity.
Ltac col_eq C Htop := rewrite col_plug; cbn [ctop f_col] in Htop; destruct C; [first [reflexivity|exact Htop]|exact Htop].
Ltac rbi := repeat match goal with
  | H : rbc (_ :: _) _ _ |- _ => inversion H; clear H; subst
  | H : rb _ _ (T _ _ _ _) |- _ => inversion H; clear H; subst
  end; repeat match goal with H : rb ?c _ ?t, E : col ?t = _ |- _ => pose proof (rb_col _ _ _ H); rewrite E in *; subst c; clear E end.

Section FixAdd2.
Context {D : Type}.
Notation st := (@st D).

Definition fa_post (s s' : st) (C : ctx) (t t' : tree) : Prop :=
  Inv s' t' /\ ino t' = ino (plug C t) /\ col t' = true /\ keeps s s' (ino (plug C t)) /\
  (forall m p, rb false m t -> rbc C p m -> exists m', rb true m' t').

Lemma fixup_add_ok : forall n (s : st) C c l x r,
  (length C < n)%nat -> Inv s (plug C (T c l x r)) -> (C = [] \/ ctop C true = true) ->
  exists s' t', fixup_add n x s = Val (tt, s') /\ fa_post s s' C (T c l x r) t'.
Proof.
  intros n. induction n as [n IH] using lt_wf_ind. intros s C c l x r Hn I Htop.
  destruct n as [|n]; [lia|]. cbn [fixup_add].
  know I.
  destruct C as [|fr C'].
  { exec. destruct (set_color_ok s [] c l x r BLACK I) as (s' & E1 & I1 & K1).
    rewrite rn_modify in E1 by assumption.
    injection E1 as <-. do 2 eexists. split; [reflexivity|]. split; [exact I1|].
    cbn [plug ino col]. split; [reflexivity|]. split; [reflexivity|]. split; [exact K1|].
    intros m p Hrb _. apply rb_red_inv in Hrb. destruct Hrb as (_ & A & B).
    exists (S m). econstructor; eassumption. }
  destruct Htop as [?|Htop]; [discriminate|].
  assert (Ip : Inv s (plug C' (plug1 fr (T c l x r)))) by exact I.
  pose proof (inv_peq _ _ _ _ _ _ _ I) as PQ1.
  exec.
  assert (Kp : f_idx fr < s_cap s /\ c_color (s_at s (f_idx fr)) = f_col fr /\
               c_parent (s_at s (f_idx fr)) = par_of C').
  { destruct fr as [c0 i0 r0|c0 l0 i0]; cbn [plug1] in Ip; know Ip; cbn [f_idx f_col]; auto. }
  destruct Kp as (Kp1 & Kp2 & Kp3). exec.
  destruct (f_col fr) eqn:Ecol.
  { do 2 eexists. split; [reflexivity|]. split; [exact I|]. split; [reflexivity|].
    assert (CT : col (plug (fr :: C') (T c l x r)) = true) by (rewrite col_plug; exact Htop).
    split; [exact CT|]. split; [apply keeps_refl|].
    intros m p Hrb HC. eapply rb_plug_true; [exact HC|exact Hrb| |exact CT].
    inversion HC; subst; auto; discriminate. }
  destruct C' as [|fr' C''].
  { cbn [ctop] in Htop. congruence. }
  cbn [par_of] in Kp3.
  assert (Kg : f_idx fr' < s_cap s /\ c_left (s_at s (f_idx fr')) = (match fr' with FL _ _ _ => Some (f_idx fr) | FR _ l0 _ => root_of l0 end) /\
     c_right (s_at s (f_idx fr')) = (match fr' with FL _ _ r0 => root_of r0 | FR _ _ _ => Some (f_idx fr) end)).
  { assert (Ig : Inv s (plug C'' (plug1 fr' (plug1 fr (T c l x r))))) by exact I.
    destruct fr' as [c1 i1 r1|c1 l1 i1]; cbn [plug1] in Ig; know Ig; cbn [f_idx]; destruct fr; auto. }
  destruct Kg as (Kg1 & Kg2 & Kg3).
  assert (SIB : sibling (f_idx fr) s = Val (root_of (f_sib fr'), s)).
  { destruct fr as [c0 i0 r0|c0 l0 i0]; exact (sibling_ok _ _ _ _ _ _ _ Ip). }
  assert (PQ2 : peq (Some (f_idx fr)) (root_of (f_sib fr')) = false).
  { destruct fr as [c0 i0 r0|c0 l0 i0]; exact (inv_peq _ _ _ _ _ _ _ Ip). }
  exec. rewrite (st_run _ _ _ _ _ SIB). cbv beta.
  destruct (col (f_sib fr')) eqn:Eunc.
  - (* uncle black *)
    assert (UC : forall k : bool -> @mon D unit, mbind (o_color (root_of (f_sib fr'))) k s = k true s).
    { intros k. destruct (f_sib fr') as [|uc ul u ur] eqn:ES; [reflexivity|]. cbn [col] in Eunc. subst uc.
      assert (Iu : exists Cu, Inv s (plug Cu (T true ul u ur))).
      { destruct fr' as [c1 i1 r1|c1 l1 i1]; cbn [f_sib] in ES; [subst r1|subst l1].
        - exists (FR c1 (plug1 fr (T c l x r)) i1 :: C''). exact I.
        - exists (FL c1 i1 (plug1 fr (T c l x r)) :: C''). exact I. }
      destruct Iu as (Cu & Iu). know Iu. exec. reflexivity. }
    rewrite UC. clear UC. cbn [negb]. cbv beta.
    destruct fr' as [c1 g u|c1 u g]; destruct fr as [c0 p sb|c0 sb p]; cbn [f_sib f_idx f_col] in *; subst c0; exec.
    + assert (I0 : Inv s (plug (FL c1 g u :: C'') (T false (T c l x r) p sb))) by exact I.
      know I0. exec.
      go (rotR_ok s C'' c1 u g false sb p (T c l x r) I) I1 K1.
      go (set_color_ok _ C'' false (T c l x r) p (T c1 sb g u) BLACK I1) I2 K2.
      go (set_color_ok _ (FR true (T c l x r) p :: C'') c1 sb g u RED I2) IL K3.
      unfold BLACK, RED in *.
      do 2 eexists. split; [reflexivity|]. split; [exact IL|]. split; [ino_eq|].
      assert (CT : col (plug C'' (T true (T c l x r) p (T false sb g u))) = true) by (col_eq C'' Htop).
      split; [exact CT|]. split; [repeat kt|].
      clear - Eunc CT. intros m pp Hrb HC. rbi.
      eapply rb_plug_true with (C := C''); [eassumption| |auto|exact CT].
      repeat (econstructor; try eassumption).
    + assert (I0 : Inv s (plug (FL c1 g u :: C'') (T false sb p (T c l x r)))) by exact I.
      know I0. exec.
      go (rotL_ok s (FL c1 g u :: C'') false sb p c l x r I) I1 K1. exec.
      go (rotR_ok _ C'' c1 u g c r x (T false sb p l) I1) I2 K2.
      go (set_color_ok _ C'' c (T false sb p l) x (T c1 r g u) BLACK I2) I3 K3.
      go (set_color_ok _ (FR true (T false sb p l) x :: C'') c1 r g u RED I3) IL K4.
      unfold BLACK, RED in *.
      do 2 eexists. split; [reflexivity|]. split; [exact IL|]. split; [ino_eq|].
      assert (CT : col (plug C'' (T true (T false sb p l) x (T false r g u))) = true) by (col_eq C'' Htop).
      split; [exact CT|]. split; [repeat kt|].
      clear - Eunc CT. intros m pp Hrb HC. rbi.
      eapply rb_plug_true with (C := C''); [eassumption| |auto|exact CT].
      repeat (econstructor; try eassumption).
    + assert (I0 : Inv s (plug (FR c1 u g :: C'') (T false (T c l x r) p sb))) by exact I.
      know I0. exec.
      go (rotR_ok s (FR c1 u g :: C'') false sb p c r x l I) I1 K1. exec.
      go (rotL_ok _ C'' c1 u g c l x (T false r p sb) I1) I2 K2.
      go (set_color_ok _ C'' c (T c1 u g l) x (T false r p sb) BLACK I2) I3 K3.
      go (set_color_ok _ (FL true x (T false r p sb) :: C'') c1 u g l RED I3) IL K4.
      unfold BLACK, RED in *.
      do 2 eexists. split; [reflexivity|]. split; [exact IL|]. split; [ino_eq|].
      assert (CT : col (plug C'' (T true (T false u g l) x (T false r p sb))) = true) by (col_eq C'' Htop).
      split; [exact CT|]. split; [repeat kt|].
      clear - Eunc CT. intros m pp Hrb HC. rbi.
      eapply rb_plug_true with (C := C''); [eassumption| |auto|exact CT].
      repeat (econstructor; try eassumption).
    + assert (I0 : Inv s (plug (FR c1 u g :: C'') (T false sb p (T c l x r)))) by exact I.
      know I0. exec.
      go (rotL_ok s C'' c1 u g false sb p (T c l x r) I) I1 K1.
      go (set_color_ok _ C'' false (T c1 u g sb) p (T c l x r) BLACK I1) I2 K2.
      go (set_color_ok _ (FL true p (T c l x r) :: C'') c1 u g sb RED I2) IL K3.
      unfold BLACK, RED in *.
      do 2 eexists. split; [reflexivity|]. split; [exact IL|]. split; [ino_eq|].
      assert (CT : col (plug C'' (T true (T false u g sb) p (T c l x r))) = true) by (col_eq C'' Htop).
      split; [exact CT|]. split; [repeat kt|].
      clear - Eunc CT. intros m pp Hrb HC. rbi.
      eapply rb_plug_true with (C := C''); [eassumption| |auto|exact CT].
      repeat (econstructor; try eassumption).
  - (* uncle red *)
    destruct (f_sib fr') as [|uc ul u ur] eqn:ES; [discriminate|]. cbn [col] in Eunc. subst uc.
    assert (Iu : exists Cu, Inv s (plug Cu (T false ul u ur))).
    { destruct fr' as [c1 i1 r1|c1 l1 i1]; cbn [f_sib] in ES; [subst r1|subst l1].
      - exists (FR c1 (plug1 fr (T c l x r)) i1 :: C''). exact I.
      - exists (FL c1 i1 (plug1 fr (T c l x r)) :: C''). exact I. }
    destruct Iu as (Cu & Iu). know Iu. cbn [root_of o_color]. rewrite st_color by assumption.
    match goal with H : c_color (s_at s u) = false |- _ => rewrite H end. cbn [negb].
    unfold n_set_color. cbn [o_set_color]. unfold n_set_color.
    assert (IHn : forall s1 gl gg gr, Inv s1 (plug C'' (T false gl gg gr)) ->
      exists s' t', fixup_add n gg s1 = Val (tt, s') /\ fa_post s1 s' C'' (T false gl gg gr) t').
    { intros. apply IH; [lia|cbn [length] in Hn; lia|assumption|].
      destruct C''; [left; reflexivity|right; exact Htop]. }
    destruct fr' as [c1 g u0|c1 u0 g]; destruct fr as [c0 p sb|c0 sb p]; cbn [f_sib f_idx f_col] in *; subst c0 u0.
    + go (set_color_ok s (FL c1 g (T false ul u ur) :: C'') false (T c l x r) p sb BLACK I) I1 K1.
      go (set_color_ok _ C'' c1 (T true (T c l x r) p sb) g (T false ul u ur) RED I1) I2 K2.
      go (set_color_ok _ (FR false (T true (T c l x r) p sb) g :: C'') false ul u ur BLACK I2) I3 K3.
      destruct (IHn _ _ _ _ I3) as (s' & t' & E4 & I4 & O4 & C4 & K4 & R4).
      exists s', t'. split; [exact E4|]. split; [exact I4|]. unfold BLACK, RED in *.
      split; [rewrite O4; ino_eq|]. split; [exact C4|]. split; [repeat kt|].
      clear - R4. intros m pp Hrb HC. rbi. eapply R4; [|eassumption].
      repeat (econstructor; try eassumption).
    + go (set_color_ok s (FL c1 g (T false ul u ur) :: C'') false sb p (T c l x r) BLACK I) I1 K1.
      go (set_color_ok _ C'' c1 (T true sb p (T c l x r)) g (T false ul u ur) RED I1) I2 K2.
      go (set_color_ok _ (FR false (T true sb p (T c l x r)) g :: C'') false ul u ur BLACK I2) I3 K3.
      destruct (IHn _ _ _ _ I3) as (s' & t' & E4 & I4 & O4 & C4 & K4 & R4).
      exists s', t'. split; [exact E4|]. split; [exact I4|]. unfold BLACK, RED in *.
      split; [rewrite O4; ino_eq|]. split; [exact C4|]. split; [repeat kt|].
      clear - R4. intros m pp Hrb HC. rbi. eapply R4; [|eassumption].
      repeat (econstructor; try eassumption).
    + go (set_color_ok s (FR c1 (T false ul u ur) g :: C'') false (T c l x r) p sb BLACK I) I1 K1.
      go (set_color_ok _ C'' c1 (T false ul u ur) g (T true (T c l x r) p sb) RED I1) I2 K2.
      go (set_color_ok _ (FL false g (T true (T c l x r) p sb) :: C'') false ul u ur BLACK I2) I3 K3.
      destruct (IHn _ _ _ _ I3) as (s' & t' & E4 & I4 & O4 & C4 & K4 & R4).
      exists s', t'. split; [exact E4|]. split; [exact I4|]. unfold BLACK, RED in *.
      split; [rewrite O4; ino_eq|]. split; [exact C4|]. split; [repeat kt|].
      clear - R4. intros m pp Hrb HC. rbi. eapply R4; [|eassumption].
      repeat (econstructor; try eassumption).
    + go (set_color_ok s (FR c1 (T false ul u ur) g :: C'') false sb p (T c l x r) BLACK I) I1 K1.
      go (set_color_ok _ C'' c1 (T false ul u ur) g (T true sb p (T c l x r)) RED I1) I2 K2.
      go (set_color_ok _ (FL false g (T true sb p (T c l x r)) :: C'') false ul u ur BLACK I2) I3 K3.
      destruct (IHn _ _ _ _ I3) as (s' & t' & E4 & I4 & O4 & C4 & K4 & R4).
      exists s', t'. split; [exact E4|]. split; [exact I4|]. unfold BLACK, RED in *.
      split; [rewrite O4; ino_eq|]. split; [exact C4|]. split; [repeat kt|].
      clear - R4. intros m pp Hrb HC. rbi. eapply R4; [|eassumption].
      repeat (econstructor; try eassumption).
Qed.
End FixAdd2.
