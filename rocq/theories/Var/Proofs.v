(** Lemmas about the wrappers of the variable services. *)
From Verif Require Import Base.Prelude Var.Model Var.Spec.
From Coq Require Import Lia ZifyBool ZifyNat ZifyN.
Local Open Scope N_scope.

Lemma list_same_eq : forall a b, list_same a b = true <-> a = b.
Proof.
  induction a as [|x a IH]; destruct b as [|y b]; cbn; try (split; congruence).
  rewrite Bool.andb_true_iff, N.eqb_eq, IH. split; [intros [-> ->]; reflexivity | intros [= -> ->]; tauto].
Qed.
Lemma is_var_spec : forall n g v, is_var n g v = true <-> v_name v = n /\ v_guid v = g.
Proof. intros. unfold is_var. rewrite Bool.andb_true_iff, !list_same_eq. tauto. Qed.

Lemma has_nul_in : forall l, existsb (N.eqb 0) l = true <-> In 0 l.
Proof.
  intros. rewrite existsb_exists. split.
  - intros [x [I E]]. apply N.eqb_eq in E. subst. exact I.
  - intros I. exists 0. split; [exact I | reflexivity].
Qed.

Lemma cstr_app : forall a b, In 0 a -> cstr (a ++ b) = cstr a.
Proof.
  induction a as [|x a IH]; intros b I; [destruct I|]. cbn. destruct (x =? 0) eqn:E; [reflexivity|].
  f_equal. apply IH. destruct I as [->|I]; [discriminate | exact I].
Qed.
Lemma cstr_name : forall n b, ~ In 0 n -> cstr (n ++ 0 :: b) = n.
Proof.
  induction n as [|x n IH]; intros b NI; cbn; [reflexivity|].
  destruct (x =? 0) eqn:E. { exfalso. apply NI. left. apply N.eqb_eq in E. exact E. }
  f_equal. apply IH. intros I. apply NI. right. exact I.
Qed.
Lemma cstr_over : forall a b, In 0 a -> cstr (over a b) = cstr a.
Proof. intros. unfold over. apply cstr_app. assumption. Qed.
Lemma in_over : forall a b, In 0 a -> In 0 (over a b).
Proof. intros. unfold over. apply in_or_app. left. assumption. Qed.
Lemma over_length : forall a b, (length a <= length b)%nat -> length (over a b) = length b.
Proof. intros. unfold over. rewrite app_length, skipn_length. lia. Qed.
Lemma over_nil : forall b, over [] b = b.
Proof. reflexivity. Qed.
Lemma resize_length : forall l n x, length (resize l n x) = N.to_nat n.
Proof. intros. unfold resize. rewrite app_length, firstn_length, repeat_length. lia. Qed.

Lemma find_var : forall s v, store_ok s -> In v s -> find (is_var (v_name v) (v_guid v)) s = Some v.
Proof.
  intros s v [ND _]. revert ND. induction s as [|w s IH]; intros ND I; [destruct I|].
  cbn. inversion ND as [|? ? NI ND']; subst. destruct (is_var (v_name v) (v_guid v) w) eqn:E.
  - destruct I as [->|I]; [reflexivity|]. exfalso. apply NI. apply is_var_spec in E. destruct E as [E1 E2].
    rewrite E1, E2. apply (in_map (fun v => (v_name v, v_guid v))). exact I.
  - destruct I as [->|I]; [|apply IH; assumption].
    exfalso. assert (T : is_var (v_name v) (v_guid v) v = true) by (apply is_var_spec; tauto). congruence.
Qed.
Lemma find_no_var : forall s n g, (forall v, In v s -> ~ (v_name v = n /\ v_guid v = g)) -> find (is_var n g) s = None.
Proof.
  induction s as [|w s IH]; intros n g H; [reflexivity|]. cbn. destruct (is_var n g w) eqn:E.
  - exfalso. apply (H w); [left; reflexivity | apply is_var_spec; exact E].
  - apply IH. intros v I. apply H. right. exact I.
Qed.

Lemma after_split : forall pre v rest, NoDup (map (fun v => (v_name v, v_guid v)) (pre ++ v :: rest)) ->
  after (v_name v) (v_guid v) (pre ++ v :: rest) = Some rest.
Proof.
  induction pre as [|w pre IH]; intros v rest ND; cbn in *.
  - assert (T : is_var (v_name v) (v_guid v) v = true) by (apply is_var_spec; tauto). rewrite T. reflexivity.
  - inversion ND as [|? ? NI ND']; subst. destruct (is_var (v_name v) (v_guid v) w) eqn:E.
    + exfalso. apply NI. apply is_var_spec in E. destruct E as [E1 E2]. rewrite E1, E2.
      apply (in_map (fun v => (v_name v, v_guid v))). apply in_or_app. right. left. reflexivity.
    + apply IH. exact ND'.
Qed.

(** ** The next name, from a firmware that does not look where the name ends *)

Definition pos (s : store) (cur g : list N) : option store := match cstr cur with [] => Some s | name => after name g s end.

Lemma uefi_next_lenient : forall s size buf g,
  uefi_next false s size buf g =
    match pos s buf g with
    | None => NRet (Some InvalidParameter) size [] g
    | Some [] => NRet (Some NotFound) size [] g
    | Some (v :: _) =>
        if size <? 2 * (N.of_nat (length (v_name v)) + 1) then NRet (Some BufferTooSmall) (2 * (N.of_nat (length (v_name v)) + 1)) [] g
        else NRet None (2 * (N.of_nat (length (v_name v)) + 1)) (v_name v ++ [0]) (v_guid v)
    end.
Proof. reflexivity. Qed.
Lemma pos_over : forall s cur b g, In 0 cur -> pos s (over cur b) g = pos s cur g.
Proof. intros. unfold pos. rewrite cstr_over by assumption. reflexivity. Qed.

Lemma next_step : forall s cur g nxt, In 0 cur ->
  match pos s cur g with
  | Some (v :: _) => ~ In 0 (v_name v) ->
      exists buf, get_next_variable_name_unchecked (uefi_next false s) cur g nxt = Ok (None, buf, v_guid v) /\ cstr buf = v_name v /\ In 0 buf
  | Some [] => exists buf, get_next_variable_name_unchecked (uefi_next false s) cur g nxt = Ok (Some NotFound, buf, g) /\ cstr buf = cstr cur /\ In 0 buf
  | None => exists buf, get_next_variable_name_unchecked (uefi_next false s) cur g nxt = Ok (Some InvalidParameter, buf, g) /\ cstr buf = cstr cur /\ In 0 buf
  end.
Proof.
  intros s cur g nxt I.
  unfold get_next_variable_name_unchecked.
  set (n0 := if (length nxt <? length cur)%nat then resize nxt (vlen cur) 0 else nxt).
  assert (L0 : (length cur <= length n0)%nat).
  { unfold n0. destruct (length nxt <? length cur)%nat eqn:E; [rewrite resize_length; unfold vlen; lia | apply Nat.ltb_ge in E; exact E]. }
  rewrite uefi_next_lenient, pos_over by exact I.
  assert (LN : vlen (over cur n0) = vlen n0) by (unfold vlen; rewrite over_length by exact L0; reflexivity).
  destruct (pos s cur g) as [[|v rest]|] eqn:P; cbn [n_status n_size n_written n_guid].
  - eexists. rewrite over_nil. split; [reflexivity|]. split; [apply cstr_over | apply in_over]; exact I.
  - intros NI. rewrite LN. destruct (vlen n0 <? 2 * (N.of_nat (length (v_name v)) + 1)) eqn:SM; cbn [n_status n_size n_written n_guid].
    + rewrite over_nil, LN.
      destruct (2 * (N.of_nat (length (v_name v)) + 1) <=? vlen n0) eqn:P2; [lia|].
      rewrite uefi_next_lenient, pos_over, P by exact I. rewrite N.ltb_irrefl. cbn [n_status n_written n_guid].
      eexists. split; [reflexivity|]. split; [rewrite cstr_over by (apply in_or_app; right; left; reflexivity); apply cstr_name; exact NI|].
      apply in_over, in_or_app. right. left. reflexivity.
    + eexists. split; [reflexivity|]. split; [rewrite cstr_over by (apply in_or_app; right; left; reflexivity); apply cstr_name; exact NI|].
      apply in_over, in_or_app. right. left. reflexivity.
  - eexists. rewrite over_nil. split; [reflexivity|]. split; [apply cstr_over | apply in_over]; exact I.
Qed.

Lemma pos_split : forall pre v rest cur, store_ok (pre ++ v :: rest) -> cstr cur = v_name v ->
  pos (pre ++ v :: rest) cur (v_guid v) = Some rest.
Proof.
  intros pre v rest cur [ND H] E. unfold pos. rewrite E.
  assert (NE : v_name v <> []) by (apply H; apply in_or_app; right; left; reflexivity).
  rewrite <- (after_split pre v rest ND). destruct (v_name v); [congruence | reflexivity].
Qed.

Lemma walk_rest : forall s rest, store_ok s -> forall it fuel,
  i_finished it = false -> In 0 (fst (i_current it)) ->
  pos s (fst (i_current it)) (snd (i_current it)) = Some rest -> (exists pre, s = pre ++ rest) -> (length rest < fuel)%nat ->
  walk (uefi_next false s) fuel it = Ok (map (fun v => (v_name v, v_guid v)) rest).
Proof.
  intros s rest OK. induction rest as [|v rest IH]; intros it fuel F I P [pre E] L; (destruct fuel as [|fuel]; [cbn in L; lia|]).
  - pose proof (next_step s _ (snd (i_current it)) (fst (i_next it)) I) as ST. rewrite P in ST. destruct ST as [buf [R _]].
    cbn [walk]. unfold advance. rewrite F, R. reflexivity.
  - pose proof (next_step s _ (snd (i_current it)) (fst (i_next it)) I) as ST. rewrite P in ST.
    assert (NI : ~ In 0 (v_name v)). { destruct OK as [_ H]. apply H. rewrite E. apply in_or_app. right. left. reflexivity. }
    destruct (ST NI) as [buf [R [C I2]]]. cbn [walk]. unfold advance. rewrite F, R. cbn [get_item i_finished i_current].
    rewrite (IH (Iter (buf, v_guid v) (i_current it) false)); cbn [i_finished i_current fst snd map].
    + rewrite C. reflexivity.
    + reflexivity.
    + exact I2.
    + rewrite E. apply pos_split; [rewrite <- E; exact OK | exact C].
    + exists (pre ++ [v]). rewrite <- app_assoc. exact E.
    + cbn in L. lia.
Qed.
