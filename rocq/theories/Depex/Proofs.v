From Verif Require Import Base.Prelude Depex.Model Depex.Spec.
Local Open Scope N_scope.

Lemma bytes_eqb_eq : forall a b, bytes_eqb a b = true <-> a = b.
Proof.
  induction a as [|x a IH]; destruct b as [|y b]; cbn; try (split; congruence).
  rewrite andb_true_iff, N.eqb_eq, IH. split; [intros [-> ->]; reflexivity|].
  intros H; inversion H; auto.
Qed.

Lemma contains_spec : forall ps g, contains ps g = true <-> In g ps.
Proof.
  intros ps g. unfold contains. rewrite existsb_exists. split.
  - intros [x [Hin E]]. apply bytes_eqb_eq in E. subst. assumption.
  - intros H. exists g. split; [assumption|]. apply bytes_eqb_eq. reflexivity.
Qed.

(** 16-byte lists *)
Lemma len16 : forall (g : bytes), length g = 16%nat ->
  exists b0 b1 b2 b3 b4 b5 b6 b7 b8 b9 b10 b11 b12 b13 b14 b15,
  g = [b0;b1;b2;b3;b4;b5;b6;b7;b8;b9;b10;b11;b12;b13;b14;b15].
Proof.
  intros g H.
  do 16 (destruct g as [|? g]; [discriminate H|]).
  destruct g; [|discriminate H]. repeat eexists.
Qed.

Definition swap (g : bytes) : bytes :=
  match uuid_from_slice_le g with Some u => u | None => [] end.

Lemma swap_ok : forall g, length g = 16%nat ->
  uuid_from_slice_le g = Some (swap g) /\ guid_from_uuid (swap g) = Some g.
Proof.
  intros g H. destruct (len16 g H) as (b0&b1&b2&b3&b4&b5&b6&b7&b8&b9&b10&b11&b12&b13&b14&b15&->).
  split; reflexivity.
Qed.

Lemma slice_get_ok : forall b g tail, length g = 16%nat ->
  slice_get_1_17 (b :: g ++ tail) = Some g.
Proof.
  intros b g tail H. unfold slice_get_1_17.
  assert (E : (17 <=? length (b :: g ++ tail))%nat = true).
  { apply Nat.leb_le. cbn [length]. rewrite app_length. lia. }
  rewrite E. cbn [skipn]. rewrite firstn_app, H. rewrite Nat.sub_diag. rewrite firstn_O, app_nil_r.
  rewrite firstn_all2 by lia. reflexivity.
Qed.

Fixpoint compile (e : expr) : list opcode :=
  match e with
  | EProto g => [Push (swap g) false]
  | ETrue => [OTrue] | EFalse => [OFalse]
  | ENot a => compile a ++ [Not]
  | EAnd a b => compile a ++ compile b ++ [And]
  | EOr a b => compile a ++ compile b ++ [Or]
  end.

Lemma encode_nonempty : forall e, (0 < length (encode e))%nat.
Proof. induction e; cbn; rewrite ?app_length; cbn; lia. Qed.

(** enough fuel is as good as any fuel *)
Lemma parse_go_fuel : forall f bs, (length bs <= f)%nat -> parse_go f bs = parse_go (length bs) bs.
Proof.
  enough (G : forall n f bs, (length bs <= n)%nat -> (n <= f)%nat -> parse_go f bs = parse_go n bs).
  { intros f bs H. apply G; lia. }
  induction n as [|n IH]; intros f bs H1 H2.
  - destruct bs; [|cbn in H1; lia]. destruct f; reflexivity.
  - destruct f as [|f]; [lia|]. cbn [parse_go]. destruct bs as [|b rest]; [reflexivity|].
    f_equal. apply IH; [|lia].
    cbn [length] in H1. assert (B : (1 <= byte_size (opcode_from b rest))%nat).
    { destruct (opcode_from b rest); cbn; lia. }
    rewrite skipn_length. cbn [length]. lia.
Qed.

Lemma depex_from_cons : forall b rest,
  depex_from (b :: rest) =
  opcode_from b rest :: depex_from (skipn (byte_size (opcode_from b rest)) (b :: rest)).
Proof.
  intros. unfold depex_from at 1. cbn [length parse_go]. f_equal.
  unfold depex_from.
  assert (B : (1 <= byte_size (opcode_from b rest))%nat).
  { destruct (opcode_from b rest); cbn; lia. }
  apply parse_go_fuel. rewrite skipn_length. cbn [length]. lia.
Qed.

Lemma opcode_from_push : forall g tail, length g = 16%nat ->
  opcode_from 2 (g ++ tail) = Push (swap g) false.
Proof.
  intros. unfold opcode_from. rewrite slice_get_ok by assumption.
  cbn [uuid_from_slice]. destruct (swap_ok g H) as [-> _]. reflexivity.
Qed.
Lemma opcode_from_before : forall g tail, length g = 16%nat ->
  opcode_from 0 (g ++ tail) = Before (swap g).
Proof.
  intros. unfold opcode_from. rewrite slice_get_ok by assumption.
  cbn [uuid_from_slice]. destruct (swap_ok g H) as [-> _]. reflexivity.
Qed.
Lemma opcode_from_after : forall g tail, length g = 16%nat ->
  opcode_from 1 (g ++ tail) = After (swap g).
Proof.
  intros. unfold opcode_from. rewrite slice_get_ok by assumption.
  cbn [uuid_from_slice]. destruct (swap_ok g H) as [-> _]. reflexivity.
Qed.

Lemma parse_encode : forall e tail, wf_expr e ->
  depex_from (encode e ++ tail) = compile e ++ depex_from tail.
Proof.
  induction e; intros tail W; cbn [encode compile wf_expr] in *.
  - cbn [app]. rewrite depex_from_cons, opcode_from_push by exact W. cbn [byte_size guid_size].
    cbn [app]. f_equal. f_equal. change (skipn (1 + guid_size) (2 :: g ++ tail)) with (skipn 16 (g ++ tail)).
    rewrite skipn_app, W. rewrite Nat.sub_diag. rewrite skipn_all2 by (unfold wf_guid in W; lia). reflexivity.
  - cbn [app]. rewrite depex_from_cons. reflexivity.
  - cbn [app]. rewrite depex_from_cons. reflexivity.
  - rewrite <- !app_assoc. rewrite IHe by assumption. cbn [app]. rewrite depex_from_cons. reflexivity.
  - destruct W as [W1 W2]. rewrite <- !app_assoc. rewrite IHe1, IHe2 by assumption.
    cbn [app]. rewrite depex_from_cons. reflexivity.
  - destruct W as [W1 W2]. rewrite <- !app_assoc. rewrite IHe1, IHe2 by assumption.
    cbn [app]. rewrite depex_from_cons. reflexivity.
Qed.

Lemma depex_from_nil : depex_from [] = [].
Proof. reflexivity. Qed.

Lemma parse_depex : forall e tail, wf_expr e ->
  depex_from (depex_bytes e ++ tail) = compile e ++ End :: depex_from tail.
Proof.
  intros e tail W. unfold depex_bytes. rewrite <- app_assoc. rewrite parse_encode by assumption.
  cbn [app]. rewrite depex_from_cons. reflexivity.
Qed.

(** A compiled expression whose pushes carry latches described by a set [seen]. *)
Fixpoint compile_l (seen : bytes -> bool) (e : expr) : list opcode :=
  match e with
  | EProto g => [Push (swap g) (seen g)]
  | ETrue => [OTrue] | EFalse => [OFalse]
  | ENot a => compile_l seen a ++ [Not]
  | EAnd a b => compile_l seen a ++ compile_l seen b ++ [And]
  | EOr a b => compile_l seen a ++ compile_l seen b ++ [Or]
  end.

Lemma compile_l_false : forall e, compile_l (fun _ => false) e = compile e.
Proof. induction e; cbn; congruence. Qed.

Fixpoint bval (inst : bytes -> bool) (e : expr) : bool :=
  match e with
  | EProto g => inst g
  | ETrue => true | EFalse => false
  | ENot a => negb (bval inst a)
  | EAnd a b => bval inst a && bval inst b
  | EOr a b => bval inst a || bval inst b
  end.

Definition see (seen : bytes -> bool) (ps : list bytes) : bytes -> bool :=
  fun g => seen g || contains ps g.

Lemma eval_go_compile : forall ps seen e todo st, wf_expr e ->
  eval_go ps (compile_l seen e ++ todo) st =
  let '(r, rest) := eval_go ps todo (bval (see seen ps) e :: st) in
  (r, compile_l (see seen ps) e ++ rest).
Proof.
  intros ps seen. induction e; intros todo st W; cbn [compile_l bval wf_expr] in *.
  - cbn [app eval_go]. unfold see at 1 2. destruct (seen g) eqn:S.
    + cbn [orb]. destruct (eval_go ps todo (true :: st)). reflexivity.
    + cbn [orb]. destruct (swap_ok g W) as [_ ->].
      destruct (contains ps g) eqn:C; destruct (eval_go ps todo _); reflexivity.
  - cbn [app eval_go]. destruct (eval_go ps todo _). reflexivity.
  - cbn [app eval_go]. destruct (eval_go ps todo _). reflexivity.
  - rewrite <- app_assoc. rewrite IHe by assumption. cbn [app eval_go pop].
    destruct (eval_go ps todo _). rewrite <- app_assoc. reflexivity.
  - destruct W as [W1 W2]. rewrite <- !app_assoc. rewrite IHe1, IHe2 by assumption. cbn [app eval_go pop].
    rewrite (andb_comm (bval _ e2)).
    destruct (eval_go ps todo _). rewrite <- !app_assoc. reflexivity.
  - destruct W as [W1 W2]. rewrite <- !app_assoc. rewrite IHe1, IHe2 by assumption. cbn [app eval_go pop].
    rewrite (orb_comm (bval _ e2)).
    destruct (eval_go ps todo _). rewrite <- !app_assoc. reflexivity.
Qed.

Lemma eval_compile : forall ps seen e tail, wf_expr e ->
  eval ps (compile_l seen e ++ End :: tail) =
  (bval (see seen ps) e, compile_l (see seen ps) e ++ End :: tail).
Proof.
  intros. unfold eval. rewrite eval_go_compile by assumption. reflexivity.
Qed.

Lemma bval_holds : forall inst P e, (forall g, inst g = true <-> P g) ->
  (bval inst e = true <-> holds P e).
Proof.
  intros inst P e H. induction e; cbn [bval holds].
  - apply H.
  - tauto.
  - split; [discriminate|tauto].
  - rewrite negb_true_iff. rewrite <- IHe. destruct (bval inst e); split; try congruence; intuition.
  - rewrite andb_true_iff. tauto.
  - rewrite orb_true_iff. tauto.
Qed.

Lemma bval_ext : forall i1 i2 e, (forall g, i1 g = i2 g) -> bval i1 e = bval i2 e.
Proof. intros. induction e; cbn; congruence. Qed.

Lemma compile_l_ext : forall i1 i2 e, (forall g, i1 g = i2 g) -> compile_l i1 e = compile_l i2 e.
Proof. intros. induction e; cbn; congruence. Qed.

Lemma eval_history_compile : forall hist seen e tail, wf_expr e ->
  eval_history hist (compile_l seen e ++ End :: tail) =
  compile_l (fun g => seen g || existsb (fun ps => contains ps g) hist) e ++ End :: tail.
Proof.
  induction hist as [|ps h IH]; intros seen e tail W; cbn [eval_history existsb].
  - f_equal. apply compile_l_ext. intros. symmetry. apply orb_false_r.
  - rewrite eval_compile by assumption. cbn [snd]. rewrite IH by assumption.
    f_equal. apply compile_l_ext. intros g. unfold see. symmetry. apply orb_assoc.
Qed.

Lemma eval_after_history : forall e tail hist ps, wf_expr e ->
  (fst (eval ps (eval_history hist (depex_from (depex_bytes e ++ tail)))) = true
   <-> holds (fun g => In g ps \/ exists old, In old hist /\ In g old) e).
Proof.
  intros e tail hist ps W. rewrite parse_depex by assumption.
  rewrite <- compile_l_false. rewrite eval_history_compile by assumption.
  rewrite eval_compile by assumption. cbn [fst]. apply bval_holds.
  intros g. unfold see. cbn [orb]. rewrite orb_true_iff, contains_spec, existsb_exists.
  split.
  - intros [[o [H1 H2]]|H]; [right; exists o; split; [assumption|apply contains_spec; assumption]|left; assumption].
  - intros [H|[o [H1 H2]]]; [right; assumption|left; exists o; split; [assumption|apply contains_spec; assumption]].
Qed.

Lemma holds_mono : forall (P Q : guid -> Prop) e, not_free e -> (forall g, P g -> Q g) ->
  holds P e -> holds Q e.
Proof. intros P Q e NF HPQ. induction e; cbn in *; try tauto; try apply HPQ. Qed.

Lemma eval_not_free_stable : forall e tail hist ps ps', wf_expr e -> not_free e ->
  fst (eval ps (eval_history hist (depex_from (depex_bytes e ++ tail)))) = true ->
  fst (eval ps' (eval_history (hist ++ [ps]) (depex_from (depex_bytes e ++ tail)))) = true.
Proof.
  intros e tail hist ps ps' W NF H.
  apply eval_after_history in H; [|assumption]. apply eval_after_history; [assumption|].
  eapply holds_mono; [assumption| |exact H].
  intros g [Hg|[o [H1 H2]]]; right.
  - exists ps. split; [apply in_or_app; right; left; reflexivity|assumption].
  - exists o. split; [apply in_or_app; left; assumption|assumption].
Qed.

(** Without END, or with a bad opcode before END, the answer is false. *)

Lemma eval_go_bad : forall ps pre o post st, bad o -> ~ In End pre ->
  fst (eval_go ps (pre ++ o :: post) st) = false.
Proof.
  induction pre as [|p pre IH]; intros o post st B NE.
  - cbn [app eval_go]. destruct o; cbn in B; try contradiction; reflexivity.
  - assert (NE' : ~ In End pre) by (intros H; apply NE; right; assumption).
    cbn [app eval_go].
    destruct p; cbn [fst]; try reflexivity.
    + destruct present.
      * specialize (IH o post (true :: st) B NE'). destruct (eval_go _ _ _). exact IH.
      * destruct (guid_from_uuid u) as [g|].
        -- destruct (contains ps g).
           ++ specialize (IH o post (true :: st) B NE'). destruct (eval_go _ _ _). exact IH.
           ++ specialize (IH o post (false :: st) B NE'). destruct (eval_go _ _ _). exact IH.
        -- specialize (IH o post (false :: st) B NE'). destruct (eval_go _ _ _). exact IH.
    + destruct (pop st) as [a s1]. destruct (pop s1) as [b s2].
      specialize (IH o post ((a && b) :: s2) B NE'). destruct (eval_go _ _ _). exact IH.
    + destruct (pop st) as [a s1]. destruct (pop s1) as [b s2].
      specialize (IH o post ((a || b) :: s2) B NE'). destruct (eval_go _ _ _). exact IH.
    + destruct (pop st) as [a s1].
      specialize (IH o post (negb a :: s1) B NE'). destruct (eval_go _ _ _). exact IH.
    + specialize (IH o post (true :: st) B NE'). destruct (eval_go _ _ _). exact IH.
    + specialize (IH o post (false :: st) B NE'). destruct (eval_go _ _ _). exact IH.
    + exfalso. apply NE. left. reflexivity.
Qed.

Lemma eval_go_noend : forall ps pre st, ~ In End pre -> fst (eval_go ps pre st) = false.
Proof.
  induction pre as [|p pre IH]; intros st NE; [reflexivity|].
  assert (NE' : ~ In End pre) by (intros H; apply NE; right; assumption).
  cbn [eval_go].
  destruct p; cbn [fst]; try reflexivity.
  + destruct present; [|destruct (guid_from_uuid u) as [g|]; [destruct (contains ps g)|]];
      match goal with |- context [eval_go ps pre ?s] => specialize (IH s NE'); destruct (eval_go ps pre s); exact IH end.
  + destruct (pop st) as [a s1]. destruct (pop s1) as [b s2].
      match goal with |- context [eval_go ps pre ?s] => specialize (IH s NE'); destruct (eval_go ps pre s); exact IH end.
  + destruct (pop st) as [a s1]. destruct (pop s1) as [b s2].
      match goal with |- context [eval_go ps pre ?s] => specialize (IH s NE'); destruct (eval_go ps pre s); exact IH end.
  + destruct (pop st) as [a s1].
      match goal with |- context [eval_go ps pre ?s] => specialize (IH s NE'); destruct (eval_go ps pre s); exact IH end.
  + match goal with |- context [eval_go ps pre ?s] => specialize (IH s NE'); destruct (eval_go ps pre s); exact IH end.
  + match goal with |- context [eval_go ps pre ?s] => specialize (IH s NE'); destruct (eval_go ps pre s); exact IH end.
  + exfalso. apply NE. left. reflexivity.
Qed.

Lemma byte_size_bounds : forall o, (1 <= byte_size o <= 17)%nat.
Proof. intros []; cbn [byte_size]; unfold guid_size; lia. Qed.

(** Parsing consumes every byte exactly once: the opcodes' byte sizes cover the input, at most 16 over. *)
Lemma parse_covers : forall n bs, (length bs <= n)%nat ->
  length bs = fold_right (fun o acc => (byte_size o + acc)%nat) 0%nat (depex_from bs).
Proof.
  induction n as [|n IH]; intros bs H.
  - destruct bs; [reflexivity|cbn in H; lia].
  - destruct bs as [|b rest]; [reflexivity|].
    rewrite depex_from_cons. cbn [fold_right].
    set (o := opcode_from b rest).
    assert (B : (1 <= byte_size o <= length (b :: rest))%nat).
    { unfold o, opcode_from. 
      destruct (slice_get_1_17 (b :: rest)) as [s|] eqn:E.
      - unfold slice_get_1_17 in E. destruct (17 <=? _)%nat eqn:L; [|discriminate]. apply Nat.leb_le in L.
        match goal with |- (_ <= byte_size ?x <= _)%nat => pose proof (byte_size_bounds x) end. lia.
      - cbn [uuid_from_slice].
        assert (G : forall l, (1 <= l)%nat -> (1 <= 1 <= l)%nat) by lia.
        destruct b as [|p]; [cbn [byte_size length]; lia|].
        do 4 (try (destruct p as [p|p|]; cbn [byte_size length]; try lia)). }
    rewrite <- IH.
    + rewrite skipn_length. lia.
    + rewrite skipn_length. cbn [length] in *. lia.
Qed.

(** SOR and association *)
Lemma schedule_sor : forall e tail, wf_expr e ->
  forall ps, fst (eval ps (depex_from (9 :: depex_bytes e ++ tail))) = false /\
  schedule (depex_from (9 :: depex_bytes e ++ tail)) = depex_from (depex_bytes e ++ tail) /\
  is_sor (depex_from (9 :: depex_bytes e ++ tail)) = true.
Proof.
  intros e tail W ps. rewrite depex_from_cons. cbn [opcode_from byte_size skipn]. repeat split.
Qed.

Lemma eval_go_debug : forall ps whole todo i st r,
  eval_debug_go ps whole todo i st = Ok r -> fst (eval_go ps todo st) = r.
Proof.
  intros ps whole. induction todo as [|o todo IH]; intros i st r H; cbn [eval_debug_go eval_go] in *.
  - inversion H; reflexivity.
  - destruct o; cbn [fst].
    + destruct (negb _); [discriminate|]. destruct (_ <? _)%nat; [discriminate|].
      destruct (nth_error whole 1) as [o2|]; [destruct (opcode_is_end o2); inversion H|inversion H]; reflexivity.
    + destruct (negb _); [discriminate|]. destruct (_ <? _)%nat; [discriminate|].
      destruct (nth_error whole 1) as [o2|]; [destruct (opcode_is_end o2); inversion H|inversion H]; reflexivity.
    + destruct present.
      * apply IH in H. destruct (eval_go _ _ _). exact H.
      * destruct (guid_from_uuid u) as [g|].
        -- destruct (contains ps g); apply IH in H; destruct (eval_go _ _ _); exact H.
        -- apply IH in H. destruct (eval_go _ _ _). exact H.
    + destruct (pop st) as [a s1]. destruct (pop s1) as [b s2]. apply IH in H. destruct (eval_go _ _ _). exact H.
    + destruct (pop st) as [a s1]. destruct (pop s1) as [b s2]. apply IH in H. destruct (eval_go _ _ _). exact H.
    + destruct (pop st) as [a s1]. apply IH in H. destruct (eval_go _ _ _). exact H.
    + apply IH in H. destruct (eval_go _ _ _). exact H.
    + apply IH in H. destruct (eval_go _ _ _). exact H.
    + destruct (pop st). cbn in *. inversion H. reflexivity.
    + destruct (negb _); inversion H. reflexivity.
    + discriminate.
    + discriminate.
Qed.

Lemma eval_go_true_shape : forall ps todo st, fst (eval_go ps todo st) = true ->
  exists pre post, todo = pre ++ End :: post /\ Forall (fun o => ~ bad o) pre.
Proof.
  intros ps. induction todo as [|o todo IH]; intros st H; [discriminate|].
  cbn [eval_go] in H.
  assert (K : ~ bad o -> (exists st', fst (eval_go ps todo st') = true) ->
     exists pre post, o :: todo = pre ++ End :: post /\ Forall (fun o => ~ bad o) pre).
  { intros NB [st' H']. destruct (IH st' H') as (pre & post & -> & F).
    exists (o :: pre), post. split; [reflexivity|constructor; assumption]. }
  destruct o; cbn [fst bad] in *; try discriminate.
  - destruct present; [|destruct (guid_from_uuid u) as [g|]; [destruct (contains ps g)|]];
      (apply K; [tauto|]; match type of H with context [eval_go ps todo ?s] => exists s; destruct (eval_go ps todo s); exact H end).
  - destruct (pop st) as [a s1]. destruct (pop s1) as [b s2].
      (apply K; [tauto|]; match type of H with context [eval_go ps todo ?s] => exists s; destruct (eval_go ps todo s); exact H end).
  - destruct (pop st) as [a s1]. destruct (pop s1) as [b s2].
      (apply K; [tauto|]; match type of H with context [eval_go ps todo ?s] => exists s; destruct (eval_go ps todo s); exact H end).
  - destruct (pop st) as [a s1].
      (apply K; [tauto|]; match type of H with context [eval_go ps todo ?s] => exists s; destruct (eval_go ps todo s); exact H end).
  - (apply K; [tauto|]; match type of H with context [eval_go ps todo ?s] => exists s; destruct (eval_go ps todo s); exact H end).
  - (apply K; [tauto|]; match type of H with context [eval_go ps todo ?s] => exists s; destruct (eval_go ps todo s); exact H end).
  - exists [], todo. split; [reflexivity|constructor].
Qed.

Lemma eval_plain : forall e tail ps, wf_expr e ->
  (fst (eval ps (depex_from (depex_bytes e ++ tail))) = true <-> holds (fun g => In g ps) e).
Proof.
  intros e tail ps W. rewrite parse_depex by assumption. rewrite <- compile_l_false.
  rewrite eval_compile by assumption. cbn [fst]. apply bval_holds. intros g. unfold see. cbn [orb].
  apply contains_spec.
Qed.

Lemma eval_debug_plain_aux : forall ps whole todo e i st, wf_expr e ->
  eval_debug_go ps whole (compile e ++ todo) i st =
  eval_debug_go ps whole todo (i + length (compile e)) (bval (contains ps) e :: st).
Proof.
  intros ps whole todo e. revert todo. induction e; intros todo i st W; cbn [compile bval wf_expr] in *.
  - cbn [app eval_debug_go length]. destruct (swap_ok g W) as [_ ->]. f_equal. lia.
  - cbn [app eval_debug_go length]. f_equal. lia.
  - cbn [app eval_debug_go length]. f_equal. lia.
  - rewrite <- app_assoc. rewrite IHe by assumption. cbn [app eval_debug_go pop].
    rewrite app_length. cbn [length]. f_equal. lia.
  - destruct W as [W1 W2]. rewrite <- !app_assoc. rewrite IHe1, IHe2 by assumption. cbn [app eval_debug_go pop].
    rewrite (andb_comm (bval _ e2)). rewrite !app_length. cbn [length]. f_equal. lia.
  - destruct W as [W1 W2]. rewrite <- !app_assoc. rewrite IHe1, IHe2 by assumption. cbn [app eval_debug_go pop].
    rewrite (orb_comm (bval _ e2)). rewrite !app_length. cbn [length]. f_equal. lia.
Qed.

Lemma eval_debug_plain : forall e tail ps, wf_expr e ->
  exists r, eval_debug ps (depex_from (depex_bytes e ++ tail)) = Ok r /\ (r = true <-> holds (fun g => In g ps) e).
Proof.
  intros e tail ps W. rewrite parse_depex by assumption. unfold eval_debug.
  rewrite eval_debug_plain_aux by assumption. cbn [eval_debug_go pop fst]. eexists. split; [reflexivity|].
  apply bval_holds. apply contains_spec.
Qed.

Lemma associated_before : forall g tail, wf_guid g ->
  is_associated (depex_from (0 :: g ++ tail)) = Some (ABefore g).
Proof.
  intros g tail W. rewrite depex_from_cons, opcode_from_before by exact W.
  cbn [is_associated]. destruct (swap_ok g W) as [_ ->]. reflexivity.
Qed.
Lemma associated_after : forall g tail, wf_guid g ->
  is_associated (depex_from (1 :: g ++ tail)) = Some (AAfter g).
Proof.
  intros g tail W. rewrite depex_from_cons, opcode_from_after by exact W.
  cbn [is_associated]. destruct (swap_ok g W) as [_ ->]. reflexivity.
Qed.

Lemma not_associated_encode : forall e tail, wf_expr e ->
  is_associated (depex_from (depex_bytes e ++ tail)) = None /\ is_sor (depex_from (depex_bytes e ++ tail)) = false.
Proof.
  intros e tail W. rewrite parse_depex by assumption.
  assert (K : forall e rest, exists o l, compile e ++ rest = o :: l /\
     match o with Push _ _ | OTrue | OFalse => True | _ => False end).
  { clear. induction e; intros rest; cbn [compile app]; try (repeat eexists; exact I);
    rewrite <- ?app_assoc; auto. }
  destruct (K e (End :: depex_from tail)) as (o & l & -> & H).
  destruct o; try contradiction; split; reflexivity.
Qed.

Lemma associated_never_true : forall g tail ps, wf_guid g ->
  fst (eval ps (depex_from (0 :: g ++ tail))) = false /\ fst (eval ps (depex_from (1 :: g ++ tail))) = false.
Proof.
  intros g tail ps W. rewrite !depex_from_cons, opcode_from_before, opcode_from_after by exact W.
  split; reflexivity.
Qed.

Lemma schedule_only_sor : forall bs,
  match bs with
  | 9 :: rest => schedule (depex_from bs) = depex_from rest
  | _ => schedule (depex_from bs) = depex_from bs
  end.
Proof.
  intros [|b rest]; [reflexivity|].
  destruct (N.eq_dec b 9) as [->|Hb].
  { reflexivity. }
  assert (H : schedule (depex_from (b :: rest)) = depex_from (b :: rest)).
  { unfold depex_from, schedule. cbn [length parse_go is_sor].
    assert (S : opcode_from b rest <> Sor).
    { unfold opcode_from. destruct b as [|[[[[p|p|]|[p|p|]|]|[[p|p|]|[p|p|]|]|]|[[[p|p|]|[p|p|]|]|[[p|p|]|[p|p|]|]|]|]];
      try discriminate; try congruence;
      destruct (uuid_from_slice _); discriminate. }
    destruct (opcode_from b rest); try reflexivity. congruence. }
  destruct b as [|[[[[p|p|]|[p|p|]|]|[[p|p|]|[p|p|]|]|]|[[[p|p|]|[p|p|]|]|[[p|p|]|[p|p|]|]|]|]]; try exact H. congruence.
Qed.
