(* Rebalancing before or after a deletion: whatever the colours, the tree keeps
   its nodes in order, its root black, and the subtree of the node it starts
   from. *)
From Coq Require Import NArith List Bool Lia Permutation.
From Verif Require Import Base.Prelude Rbt.Model Rbt.Tree Rbt.Heap Rbt.Rot Rbt.FixAdd.
Import ListNotations.
Local Open Scope N_scope.

Section FixDel.
Context {D : Type}.
Notation st := (@st D).

Definition fd_post (s s' : st) (C C' : ctx) (c c' : bool) l x r : Prop :=
  Inv s' (plug C' (T c' l x r)) /\ lpart C' = lpart C /\ rpart C' = rpart C /\
  ctop C' c' = true /\ keeps s s' (ino (plug C (T c l x r))).

Ltac parts := cbn [lpart rpart plug plug1]; rewrite ?ino_plug; cbn [ino lpart rpart];
  repeat first [rewrite <- app_assoc | progress cbn [app]]; reflexivity.

Lemma red_sibling_ok (s : st) fr C c l x r a y b : Inv s (plug (fr :: C) (T c l x r)) ->
  f_sib fr = T false a y b ->
  exists s' fr1 fr2, red_sibling x (Some y) s = Val (root_of (f_sib fr1), s') /\
    Inv s' (plug (fr1 :: fr2 :: C) (T c l x r)) /\ f_col fr1 = false /\ f_col fr2 = true /\
    lpart (fr1 :: fr2 :: C) = lpart (fr :: C) /\ rpart (fr1 :: fr2 :: C) = rpart (fr :: C) /\
    keeps s s' (ino (plug (fr :: C) (T c l x r))).
Proof.
  intros I ES. unfold red_sibling. cbn [o_set_color]. unfold n_set_color.
  destruct fr as [c0 p u0|c0 u0 p]; cbn [f_sib] in ES; subst u0.
  - go (set_color_ok s (FR c0 (T c l x r) p :: C) false a y b BLACK I) I1 K1.
    assert (I1x : Inv s0 (plug (FL c0 p (T true a y b) :: C) (T c l x r))) by exact I1.
    know I1x. rexec.
    go (set_color_ok _ C c0 (T c l x r) p (T true a y b) RED I1) I2 K2.
    assert (I2p : Inv s1 (plug C (T false (T c l x r) p (T true a y b)))) by exact I2.
    know I2p. rexec.
    go (rotL_ok _ C false (T c l x r) p true a y b I2p) I3 K3.
    pose proof (sibling_ok s2 (FL false p a) (FL true y b :: C) c l x r I3) as S.
    exists s2, (FL false p a), (FL true y b). cbn [f_sib] in S |- *.
    split; [exact S|]. split; [exact I3|]. split; [reflexivity|]. split; [reflexivity|].
    split; [parts|]. split; [parts|]. unfold RED, BLACK in *. repeat kt.
  - go (set_color_ok s (FL c0 p (T c l x r) :: C) false a y b BLACK I) I1 K1.
    assert (I1x : Inv s0 (plug (FR c0 (T true a y b) p :: C) (T c l x r))) by exact I1.
    pose proof (inv_peq _ _ _ _ _ _ _ I1x) as PQ. cbn [f_sib] in PQ.
    know I1x. rexec.
    go (set_color_ok _ C c0 (T true a y b) p (T c l x r) RED I1) I2 K2.
    assert (I2p : Inv s1 (plug C (T false (T true a y b) p (T c l x r)))) by exact I2.
    know I2p. rexec.
    assert (PQ' : peq (Some y) (Some x) = false).
    { cbn in PQ |- *. now rewrite N.eqb_sym. }
    rewrite PQ'.
    go (rotR_ok _ C false (T c l x r) p true b y a I2p) I3 K3.
    pose proof (sibling_ok s2 (FR false b p) (FR true a y :: C) c l x r I3) as S.
    exists s2, (FR false b p), (FR true a y). cbn [f_sib] in S |- *.
    split; [exact S|]. split; [exact I3|]. split; [reflexivity|]. split; [reflexivity|].
    split; [parts|]. split; [parts|]. unfold RED, BLACK in *. repeat kt.
Qed.

Lemma o_color_ok (s : st) C t (k : bool -> @mon D unit) : Inv s (plug C t) ->
  mbind (o_color (root_of t)) k s = k (col t) s.
Proof.
  intros I. destruct t as [|c l x r]; [reflexivity|]. know I. cbn [root_of o_color col]. rexec. reflexivity.
Qed.
Lemma o_color_ok2 {B} (s : st) C t (k : bool -> @mon D B) : Inv s (plug C t) ->
  mbind (o_color (root_of t)) k s = k (col t) s.
Proof.
  intros I. destruct t as [|c l x r]; [reflexivity|]. know I. cbn [root_of o_color col]. rexec. reflexivity.
Qed.

Lemma red_nephew_ok (s : st) fr C c l x r cs sl y sr : Inv s (plug (fr :: C) (T c l x r)) ->
  f_sib fr = T cs sl y sr -> col sl && col sr = false ->
  exists s' fr1 fr2, red_nephew x (Some y) s = Val (tt, s') /\
    Inv s' (plug (fr1 :: fr2 :: C) (T c l x r)) /\ f_col fr2 = f_col fr /\
    lpart (fr1 :: fr2 :: C) = lpart (fr :: C) /\ rpart (fr1 :: fr2 :: C) = rpart (fr :: C) /\
    keeps s s' (ino (plug (fr :: C) (T c l x r))).
Proof.
  intros I ES HC. unfold red_nephew.
  destruct fr as [c0 p u0|c0 u0 p]; cbn [f_sib f_col] in *; subst u0.
  - assert (Is : Inv s (plug (FR c0 (T c l x r) p :: C) (T cs sl y sr))) by exact I.
    assert (Ip : Inv s (plug C (T c0 (T c l x r) p (T cs sl y sr)))) by exact I.
    know I. know Is. know Ip. rexec.
    rewrite (o_color_ok2 s (FR cs sl y :: FR c0 (T c l x r) p :: C) sr) by exact I. rexec.
    rewrite (o_color_ok2 s (FL cs y sr :: FR c0 (T c l x r) p :: C) sl) by exact I. rexec.
    destruct (col sr) eqn:Esr; cbn [negb andb].
    + (* inner nephew red *)
      destruct sl as [|csl a z b]; [discriminate|]. cbn [col] in HC. rewrite andb_true_r in HC. subst csl.
      rexec.
      go (set_color_ok s (FL cs y sr :: FR c0 (T c l x r) p :: C) false a z b BLACK I) I1 K1.
      go (set_color_ok _ (FR c0 (T c l x r) p :: C) cs (T true a z b) y sr RED I1) I2 K2.
      go (rotR_ok _ (FR c0 (T c l x r) p :: C) false sr y true b z a I2) I3 K3.
      pose proof (sibling_ok _ (FL c0 p (T true a z (T false b y sr))) C c l x r I3) as S.
      rewrite (st_run _ _ _ _ _ S). cbn [f_sib root_of].
      assert (I3x : Inv s2 (plug (FL c0 p (T true a z (T false b y sr)) :: C) (T c l x r))) by exact I3.
      assert (I3p : Inv s2 (plug C (T c0 (T c l x r) p (T true a z (T false b y sr))))) by exact I3.
      know I3x. know I3p. rexec.
      go (set_color_ok _ (FR c0 (T c l x r) p :: C) true a z (T false b y sr) c0 I3) I4 K4.
      go (set_color_ok _ C c0 (T c l x r) p (T c0 a z (T false b y sr)) BLACK I4) I5 K5.
      assert (I5z : Inv s4 (plug (FR true (T c l x r) p :: C) (T c0 a z (T false b y sr)))) by exact I5.
      know I5z. rexec.
      go (set_color_ok _ (FR c0 a z :: FR true (T c l x r) p :: C) false b y sr BLACK I5) I6 K6.
      go (rotL_ok _ C true (T c l x r) p c0 a z (T true b y sr) I6) I7 K7.
      exists s6, (FL true p a), (FL c0 z (T true b y sr)).
      split; [reflexivity|]. split; [exact I7|]. split; [reflexivity|].
      split; [parts|]. split; [parts|]. unfold RED, BLACK in *. repeat kt.
    + (* outer nephew red *)
      destruct sr as [|csr a z b]; [discriminate|]. cbn [col] in Esr. subst csr.
      rexec.
      go (set_color_ok s (FR c0 (T c l x r) p :: C) cs sl y (T false a z b) c0 I) I4 K4.
      go (set_color_ok _ C c0 (T c l x r) p (T c0 sl y (T false a z b)) BLACK I4) I5 K5.
      assert (I5z : Inv s1 (plug (FR true (T c l x r) p :: C) (T c0 sl y (T false a z b)))) by exact I5.
      know I5z. rexec.
      go (set_color_ok _ (FR c0 sl y :: FR true (T c l x r) p :: C) false a z b BLACK I5) I6 K6.
      go (rotL_ok _ C true (T c l x r) p c0 sl y (T true a z b) I6) I7 K7.
      exists s3, (FL true p sl), (FL c0 y (T true a z b)).
      split; [reflexivity|]. split; [exact I7|]. split; [reflexivity|].
      split; [parts|]. split; [parts|]. unfold RED, BLACK in *. repeat kt.
  - assert (Is : Inv s (plug (FL c0 p (T c l x r) :: C) (T cs sl y sr))) by exact I.
    assert (Ip : Inv s (plug C (T c0 (T cs sl y sr) p (T c l x r)))) by exact I.
    pose proof (inv_peq _ _ _ _ _ _ _ I) as PQ. cbn [f_sib root_of] in PQ.
    know I. know Is. know Ip. rexec.
    rewrite (o_color_ok2 s (FR cs sl y :: FL c0 p (T c l x r) :: C) sr) by exact I. rexec.
    rewrite (o_color_ok2 s (FL cs y sr :: FL c0 p (T c l x r) :: C) sl) by exact I. rexec.
    destruct (col sl) eqn:Esl; cbn [negb andb] in HC |- *.
    + (* inner nephew red *)
      destruct sr as [|csr a z b]; [discriminate|]. cbn [col] in HC. subst csr.
      rexec.
      go (set_color_ok s (FR cs sl y :: FL c0 p (T c l x r) :: C) false a z b BLACK I) I1 K1.
      go (set_color_ok _ (FL c0 p (T c l x r) :: C) cs sl y (T true a z b) RED I1) I2 K2.
      go (rotL_ok _ (FL c0 p (T c l x r) :: C) false sl y true a z b I2) I3 K3.
      pose proof (sibling_ok _ (FR c0 (T true (T false sl y a) z b) p) C c l x r I3) as S.
      rewrite (st_run _ _ _ _ _ S). cbn [f_sib root_of].
      assert (I3x : Inv s2 (plug (FR c0 (T true (T false sl y a) z b) p :: C) (T c l x r))) by exact I3.
      assert (I3p : Inv s2 (plug C (T c0 (T true (T false sl y a) z b) p (T c l x r)))) by exact I3.
      know I3x. know I3p. rexec.
      go (set_color_ok _ (FL c0 p (T c l x r) :: C) true (T false sl y a) z b c0 I3) I4 K4.
      go (set_color_ok _ C c0 (T c0 (T false sl y a) z b) p (T c l x r) BLACK I4) I5 K5.
      assert (I5z : Inv s4 (plug (FL true p (T c l x r) :: C) (T c0 (T false sl y a) z b))) by exact I5.
      know I5z. rexec.
      go (set_color_ok _ (FL c0 z b :: FL true p (T c l x r) :: C) false sl y a BLACK I5) I6 K6.
      go (rotR_ok _ C true (T c l x r) p c0 b z (T true sl y a) I6) I7 K7.
      exists s6, (FR true b p), (FR c0 (T true sl y a) z).
      split; [reflexivity|]. split; [exact I7|]. split; [reflexivity|].
      split; [parts|]. split; [parts|]. unfold RED, BLACK in *. repeat kt.
    + (* outer nephew red *)
      destruct sl as [|csl a z b]; [discriminate|]. cbn [col] in Esl. subst csl.
      rexec.
      go (set_color_ok s (FL c0 p (T c l x r) :: C) cs (T false a z b) y sr c0 I) I4 K4.
      go (set_color_ok _ C c0 (T c0 (T false a z b) y sr) p (T c l x r) BLACK I4) I5 K5.
      assert (I5z : Inv s1 (plug (FL true p (T c l x r) :: C) (T c0 (T false a z b) y sr))) by exact I5.
      know I5z. rexec.
      go (set_color_ok _ (FL c0 y sr :: FL true p (T c l x r) :: C) false a z b BLACK I5) I6 K6.
      go (rotR_ok _ C true (T c l x r) p c0 sr y (T true a z b) I6) I7 K7.
      exists s3, (FR true sr p), (FR c0 (T true a z b) y).
      split; [reflexivity|]. split; [exact I7|]. split; [reflexivity|].
      split; [parts|]. split; [parts|]. unfold RED, BLACK in *. repeat kt.
Qed.

(* Recolouring the sibling, if there is one. *)
Definition set_sib fr t := match fr with FL c i _ => FL c i t | FR c _ i => FR c t i end.
Definition set_fcol fr c := match fr with FL _ i r => FL c i r | FR _ l i => FR c l i end.
Definition recol c t := match t with E => E | T _ l i r => T c l i r end.

Lemma lpart_set_sib fr C c : lpart (set_sib fr (recol c (f_sib fr)) :: C) = lpart (fr :: C).
Proof. destruct fr as [? ? [|]|? [|] ?]; reflexivity. Qed.
Lemma rpart_set_sib fr C c : rpart (set_sib fr (recol c (f_sib fr)) :: C) = rpart (fr :: C).
Proof. destruct fr as [? ? [|]|? [|] ?]; reflexivity. Qed.
Lemma lpart_set_fcol fr C c : lpart (set_fcol fr c :: C) = lpart (fr :: C).
Proof. destruct fr; reflexivity. Qed.
Lemma rpart_set_fcol fr C c : rpart (set_fcol fr c :: C) = rpart (fr :: C).
Proof. destruct fr; reflexivity. Qed.

Lemma set_sib_ok (s : st) fr C t c : Inv s (plug (fr :: C) t) ->
  exists s', o_set_color (root_of (f_sib fr)) c s = Val (tt, s') /\
    Inv s' (plug (set_sib fr (recol c (f_sib fr)) :: C) t) /\ keeps s s' (ino (plug (fr :: C) t)).
Proof.
  intros I. destruct fr as [c0 p [|cs a y b]|c0 [|cs a y b] p]; cbn [f_sib root_of o_set_color recol set_sib].
  - exists s. repeat split; try apply I; apply keeps_refl.
  - exact (set_color_ok s (FR c0 t p :: C) cs a y b c I).
  - exists s. repeat split; try apply I; apply keeps_refl.
  - exact (set_color_ok s (FL c0 p t :: C) cs a y b c I).
Qed.

Lemma set_parent_color_ok (s : st) fr C t c : Inv s (plug (fr :: C) t) ->
  exists s', o_set_color (Some (f_idx fr)) c s = Val (tt, s') /\
    Inv s' (plug (set_fcol fr c :: C) t) /\ keeps s s' (ino (plug (fr :: C) t)).
Proof.
  intros I. destruct fr as [c0 p u|c0 u p]; cbn [o_set_color f_idx set_fcol].
  - exact (set_color_ok s C c0 t p u c I).
  - exact (set_color_ok s C c0 u p t c I).
Qed.

Lemma sib_nephews {B} (s : st) fr C t (k : bool -> bool -> @mon D B) : Inv s (plug (fr :: C) t) ->
  mbind (o_left (root_of (f_sib fr))) (fun sl => mbind (o_color sl) (fun slc =>
    mbind (o_right (root_of (f_sib fr))) (fun sr => mbind (o_color sr) (fun src => k slc src)))) s
  = match f_sib fr with E => k true true s | T _ a _ b => k (col a) (col b) s end.
Proof.
  intros I. destruct fr as [c0 p [|cs a y b]|c0 [|cs a y b] p]; cbn [f_sib root_of o_left o_right]; try reflexivity.
  - assert (Is : Inv s (plug (FR c0 t p :: C) (T cs a y b))) by exact I. know Is. rexec.
    rewrite (o_color_ok2 s (FL cs y b :: FR c0 t p :: C) a) by exact I. rexec.
    rewrite (o_color_ok2 s (FR cs a y :: FR c0 t p :: C) b) by exact I. reflexivity.
  - assert (Is : Inv s (plug (FL c0 p t :: C) (T cs a y b))) by exact I. know Is. rexec.
    rewrite (o_color_ok2 s (FL cs y b :: FL c0 p t :: C) a) by exact I. rexec.
    rewrite (o_color_ok2 s (FR cs a y :: FL c0 p t :: C) b) by exact I. reflexivity.
Qed.

Lemma parent_color {B} (s : st) fr C t (k : bool -> @mon D B) : Inv s (plug (fr :: C) t) ->
  mbind (o_color (Some (f_idx fr))) k s = k (f_col fr) s.
Proof.
  intros I. destruct fr as [c0 p u|c0 u p]; cbn [o_color f_idx f_col].
  - assert (Ip : Inv s (plug C (T c0 t p u))) by exact I. know Ip. rexec. reflexivity.
  - assert (Ip : Inv s (plug C (T c0 u p t))) by exact I. know Ip. rexec. reflexivity.
Qed.

(* Cases 3 to 6, once the sibling is settled. *)
Definition fd_tail (n : nat) (node : N) (sib : option N) : @mon D unit :=
  mbind (o_left sib) (fun sl => mbind (o_color sl) (fun slc =>
  mbind (o_right sib) (fun sr => mbind (o_color sr) (fun src =>
    if slc && src then
      mbind (o_set_color sib RED) (fun _ =>
      mbind (n_parent node) (fun p =>
      mbind (o_color p) (fun pc =>
      if negb pc then o_set_color p BLACK else fixup_delete n p)))
    else red_nephew node sib)))).

Lemma ctop_any C a b : C <> [] -> ctop C a = ctop C b.
Proof. destruct C; [congruence|reflexivity]. Qed.
Lemma ctop_true C a : ctop C a = true -> ctop C true = true.
Proof. destruct C; auto. Qed.
Lemma f_col_set_sib fr t : f_col (set_sib fr t) = f_col fr.
Proof. destruct fr; reflexivity. Qed.
Lemma f_idx_set_sib fr t : f_idx (set_sib fr t) = f_idx fr.
Proof. destruct fr; reflexivity. Qed.
Lemma keeps_ino s s' l l' : l' = l -> @keeps D s s' l -> keeps s s' l'.
Proof. intros ->. auto. Qed.

Lemma fd_tail_ok n (s : st) fr C c l x r :
  (forall (s : st) C c l x r, (length C < n)%nat -> Inv s (plug C (T c l x r)) -> (C = [] \/ ctop C true = true) ->
     exists s' C' c', fixup_delete n (Some x) s = Val (tt, s') /\ fd_post s s' C C' c c' l x r) ->
  (f_col fr = false \/ length C < n)%nat ->
  Inv s (plug (fr :: C) (T c l x r)) -> ctop (fr :: C) true = true ->
  exists s' C' c', fd_tail n x (root_of (f_sib fr)) s = Val (tt, s') /\ fd_post s s' (fr :: C) C' c c' l x r.
Proof.
  intros IH Hn I Htop. unfold fd_tail. rewrite (sib_nephews s fr C _ _ I).
  assert (BB : exists s' C' c',
    mbind (o_set_color (root_of (f_sib fr)) RED) (fun _ => mbind (n_parent x) (fun p =>
      mbind (o_color p) (fun pc => if negb pc then o_set_color p BLACK else fixup_delete n p))) s = Val (tt, s') /\
      fd_post s s' (fr :: C) C' c c' l x r).
  { go (set_sib_ok s fr C (T c l x r) RED I) I1 K1.
    set (fr1 := set_sib fr (recol RED (f_sib fr))) in *.
    know I1. rexec. change (f_idx fr1) with (f_idx fr1).
    rewrite (parent_color s0 fr1 C (T c l x r) _ I1).
    assert (EC : f_col fr1 = f_col fr) by apply f_col_set_sib. rewrite EC.
    assert (LP : lpart (fr1 :: C) = lpart (fr :: C)) by apply lpart_set_sib.
    assert (RP : rpart (fr1 :: C) = rpart (fr :: C)) by apply rpart_set_sib.
    assert (INO : ino (plug (fr1 :: C) (T c l x r)) = ino (plug (fr :: C) (T c l x r)))
      by (rewrite !ino_plug, LP, RP; reflexivity).
    destruct (f_col fr) eqn:Ef; cbn [negb].
    - destruct Hn as [?|Hn]; [discriminate|].
      assert (IHx : exists s' C2 c2, fixup_delete n (Some (f_idx fr1)) s0 = Val (tt, s') /\
          Inv s' (plug (set_fcol fr1 c2 :: C2) (T c l x r)) /\ lpart C2 = lpart C /\ rpart C2 = rpart C /\
          ctop C2 c2 = true /\ keeps s0 s' (ino (plug (fr1 :: C) (T c l x r)))).
      { assert (CC : C = [] \/ ctop C true = true) by (right; cbn [ctop] in Htop; eapply ctop_true; exact Htop).
        destruct fr1 as [cc p u|cc u p] eqn:Efr; cbn [f_idx set_fcol].
        - destruct (IH s0 C cc (T c l x r) p u Hn I1 CC) as (s' & C2 & c2 & E2 & (I2 & L2 & R2 & T2 & K2)).
          exists s', C2, c2. split; [exact E2|]. split; [exact I2|]. split; [exact L2|]. split; [exact R2|]. split; [exact T2|]. exact K2.
        - destruct (IH s0 C cc u p (T c l x r) Hn I1 CC) as (s' & C2 & c2 & E2 & (I2 & L2 & R2 & T2 & K2)).
          exists s', C2, c2. split; [exact E2|]. split; [exact I2|]. split; [exact L2|]. split; [exact R2|]. split; [exact T2|]. exact K2. }
      destruct IHx as (s' & C2 & c2 & E2 & I2 & L2 & R2 & T2 & K2).
      exists s', (set_fcol fr1 c2 :: C2), c. split; [exact E2|]. split; [exact I2|].
      split; [|split; [|split]].
      + rewrite lpart_set_fcol, <- LP. destruct fr1; cbn [lpart]; now rewrite L2.
      + rewrite rpart_set_fcol, <- RP. destruct fr1; cbn [rpart]; now rewrite R2.
      + cbn [ctop]. destruct fr1; exact T2.
      + eapply keeps_trans; [reflexivity|exact K1|]. rewrite <- INO. exact K2.
    - destruct (set_parent_color_ok s0 fr1 C (T c l x r) BLACK I1) as (s1 & E2 & I2 & K2).
      exists s1, (set_fcol fr1 true :: C), c. split; [exact E2|]. split; [exact I2|].
      split; [rewrite lpart_set_fcol; exact LP|]. split; [rewrite rpart_set_fcol; exact RP|].
      split.
      + cbn [ctop] in Htop |- *. replace (f_col (set_fcol fr1 true)) with true by (destruct fr1; reflexivity).
        eapply ctop_true; exact Htop.
      + eapply keeps_trans; [reflexivity|exact K1|]. rewrite <- INO. exact K2. }
  destruct (f_sib fr) as [|cs a y b] eqn:ES; [exact BB|].
  destruct (col a && col b) eqn:EB; [exact BB|].
  destruct (red_nephew_ok s fr C c l x r cs a y b I ES EB) as (s' & fr1 & fr2 & E1 & I1 & F2 & L1 & R1 & K1).
  exists s', (fr1 :: fr2 :: C), c. split; [exact E1|]. split; [exact I1|]. split; [exact L1|]. split; [exact R1|].
  split; [|exact K1]. cbn [ctop]. rewrite F2. exact Htop.
Qed.

Lemma fixup_delete_ok : forall n (s : st) C c l x r,
  (length C < n)%nat -> Inv s (plug C (T c l x r)) -> (C = [] \/ ctop C true = true) ->
  exists s' C' c', fixup_delete n (Some x) s = Val (tt, s') /\ fd_post s s' C C' c c' l x r.
Proof.
  intros n. induction n as [|n IH]; intros s C c l x r Hn I Htop; [lia|].
  cbn [fixup_delete o_parent]. know I.
  destruct C as [|fr C].
  - rexec. cbn [par_of]. 
    destruct (set_color_ok s [] c l x r BLACK I) as (s' & E1 & I1 & K1).
    exists s', [], true. split; [exact E1|]. repeat split; try apply I1; try apply K1.
  - destruct Htop as [?|Htop]; [discriminate|].
    rexec. rewrite (st_run _ _ _ _ _ (sibling_ok _ _ _ _ _ _ _ I)).
    assert (OC : forall B (k : bool -> @mon D B), mbind (o_color (root_of (f_sib fr))) k s = k (col (f_sib fr)) s).
    { intros B k. destruct fr as [c0 p u|c0 u p]; cbn [f_sib].
      - apply (o_color_ok2 s (FR c0 (T c l x r) p :: C)). exact I.
      - apply (o_color_ok2 s (FL c0 p (T c l x r) :: C)). exact I. }
    rewrite OC. cbv beta.
    destruct (col (f_sib fr)) eqn:Ec; cbn [negb].
    + rewrite st_ret. cbn [length] in Hn.
      assert (Hn' : (length C < n)%nat) by lia.
      exact (fd_tail_ok n s fr C c l x r IH (or_intror Hn') I Htop).
    + destruct (f_sib fr) as [|cs a y b] eqn:ES; [discriminate|]. cbn [col] in Ec. subst cs.
      destruct (red_sibling_ok s fr C c l x r a y b I ES) as (s1 & fr1 & fr2 & E1 & I1 & F1 & F2 & L1 & R1 & K1).
      cbn [root_of]. rewrite (st_run _ _ _ _ _ E1).
      assert (T1 : ctop (fr1 :: fr2 :: C) true = true).
      { cbn [ctop]. rewrite F2. eapply ctop_true; exact Htop. }
      destruct (fd_tail_ok n s1 fr1 (fr2 :: C) c l x r IH (or_introl F1) I1 T1) as (s' & C' & c' & E2 & (I2 & L2 & R2 & T2 & K2)).
      exists s', C', c'. split; [exact E2|]. split; [exact I2|].
      split; [now rewrite L2|]. split; [now rewrite R2|]. split; [exact T2|].
      eapply keeps_trans; [|exact K1|exact K2]. intros z. rewrite !ino_plug, L1, R1. reflexivity.
Qed.

End FixDel.
