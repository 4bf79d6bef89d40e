(* Unlinking a node. *)
From Coq Require Import NArith List Bool Lia Permutation.
From Verif Require Import Base.Prelude Rbt.Model Rbt.Tree Rbt.Heap Rbt.Rot Rbt.FixAdd Rbt.FixDel.
Import ListNotations.
Local Open Scope N_scope.

Section Remove.
Context {D : Type}.
Notation st := (@st D).

(* What is left after unlinking x: the tree without it, and x's own cell as it was. *)
Definition gone (s s' : st) (x : N) (t t' : tree) : Prop :=
  Inv s' t' /\ s_at s' x = s_at s x /\ keeps s s' (ino t).

Definition one (side : bool) (c : bool) (x : N) (t : tree) : tree := if side then T c t x E else T c E x t.

Lemma remove01_ok (s : st) side C c x t : Inv s (plug C (one side c x t)) ->
  exists s', remove01 x s = Val (root_of t, s') /\
    rep (s_at s') None (plug C t) /\ s_root s' = s_root s /\
    s_at s' x = s_at s x /\ keeps s s' (ino (plug C (one side c x t))).
Proof.
  intros [R ND BD RT]. unfold remove01.
  destruct side; cbn [one] in *; count_out ND;
  (assert (Hx : x < s_cap s) by (apply BD; cn_goal; lia));
  rewrite rep_plug in R; destruct R as [RC RR]; cbn [rep root_of] in RR;
  destruct RR as (X1 & X2 & X3 & X4 & RA & RB);
  (destruct t as [|ct tl it tr];
    [| count_out ND; assert (Ht : it < s_cap s) by (apply BD; cn_goal; lia);
       assert (Ntx : it <> x) by ne ND;
       cbn [rep] in RA, RB;
       first [destruct RA as (B1 & B2 & B3 & B4 & RBl & RBr) | destruct RB as (B1 & B2 & B3 & B4 & RBl & RBr)] ];
  (destruct C as [|[c0 i0 r0|c0 l0 i0] C'];
    [ count_out ND
    | count_out ND; assert (Hp : i0 < s_cap s) by (apply BD; cn_goal; lia);
       assert (Npx : i0 <> x) by ne ND; try (assert (Npt : i0 <> it) by ne ND);
       cbn [repc] in RC; destruct RC as (P1 & P2 & P3 & P4 & RP & RC)
    | count_out ND; assert (Hp : i0 < s_cap s) by (apply BD; cn_goal; lia);
       assert (Npx : i0 <> x) by ne ND; try (assert (Npt : i0 <> it) by ne ND);
       cbn [repc] in RC; destruct RC as (P1 & P2 & P3 & P4 & RP & RC) ]);
  try (assert (Npl : peq (root_of l0) (Some x) = false) by
        (destruct l0; [reflexivity|]; count_out ND; apply peq_diff; ne ND)));
  exec;
  (eexists; split; [reflexivity|]; split;
    [rewrite rep_plug; cbn [repc rep root_of par_of f_idx]; repeat match goal with |- _ /\ _ => split end; cell_goal ND
    | split; [reflexivity|split; [repeat ev_step; reflexivity|first [apply keeps_refl | keeps_goal]]]]).
Qed.

Lemma bst_remove01_same (s : st) side C c x t : Inv s (plug C (one side c x t)) ->
  bst_remove01 x s = remove01 x s.
Proof.
  intros [R ND BD RT]. unfold remove01, bst_remove01.
  destruct side; cbn [one] in *; count_out ND;
  (assert (Hx : x < s_cap s) by (apply BD; cn_goal; lia));
  rewrite rep_plug in R; destruct R as [RC RR]; cbn [rep root_of] in RR;
  destruct RR as (X1 & X2 & X3 & X4 & RA & RB);
  (destruct t as [|ct tl it tr]; [|exec; reflexivity]);
  (destruct C as [|[c0 i0 r0|c0 l0 i0] C']; [exec; reflexivity|..]);
  (count_out ND; assert (Hp : i0 < s_cap s) by (apply BD; cn_goal; lia);
       assert (Npx : i0 <> x) by ne ND;
       cbn [repc] in RC; destruct RC as (P1 & P2 & P3 & P4 & RP & RC));
  try (assert (Npl : peq (root_of l0) (Some x) = false) by
        (destruct l0; [reflexivity|]; count_out ND; apply peq_diff; ne ND));
  exec; reflexivity.
Qed.

End Remove.
