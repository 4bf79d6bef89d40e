(** C71: reading, writing and enumerating variables through the wrappers, over a firmware that does what the UEFI specification says. *)
From Verif Require Import Base.Prelude Var.Model Var.Spec Var.Proofs.
From Coq Require Import Lia ZifyBool ZifyNat ZifyN.
Local Open Scope N_scope.

Lemma terminated_nul : forall n, has_nul (n ++ [0]) = true.
Proof. intros. apply has_nul_in, in_or_app. right. left. reflexivity. Qed.
Lemma resize_nil : forall n x, resize [] n x = repeat x (N.to_nat n).
Proof. intros. unfold resize. rewrite firstn_nil. cbn. rewrite Nat.sub_0_r. reflexivity. Qed.
Lemma uefi_get_var : forall s v size null, store_ok s -> In v s ->
  uefi_get s (v_name v ++ [0]) (v_guid v) size null =
    if size <? vlen (v_data v) then GRet (Some BufferTooSmall) (v_attr v) (vlen (v_data v)) []
    else if null then GRet (Some InvalidParameter) 0 size []
    else GRet None (v_attr v) (vlen (v_data v)) (v_data v).
Proof.
  intros s v size null OK I. unfold uefi_get. pose proof OK as [_ H]. rewrite cstr_name by (apply H; exact I).
  rewrite find_var by assumption. reflexivity.
Qed.
Lemma over_exact : forall a b, length a = length b -> over a b = a.
Proof. intros a b L. unfold over. rewrite L, skipn_all, app_nil_r. reflexivity. Qed.

(** A variable read without a hint, or with one that is not above its size, comes back exactly, with its attributes. *)
Theorem c71_get_partial : forall T (conv : list N -> option T) dbg s v hint, store_ok s -> In v s ->
  match hint with Some n => n <= N.of_nat (length (v_data v)) | None => True end ->
  get_variable dbg conv (uefi_get s) (v_name v ++ [0]) (v_guid v) hint =
    match conv (v_data v) with Some d => Ok (d, v_attr v) | None => Err InvalidParameter end.
Proof.
  intros T conv dbg s v hint OK I HH. pose proof OK as [_ H]. destruct (H v I) as [_ [_ NE]].
  assert (LP : (0 < length (v_data v))%nat) by (destruct (v_data v); [congruence | cbn; lia]).
  unfold get_variable. rewrite terminated_nul. cbn [negb].
  assert (EX : forall l, length l = length (v_data v) ->
    get_variable_unchecked (uefi_get s) (v_name v ++ [0]) (v_guid v) (match l with [] => None | _ => Some l end) = (GSuccess (vlen (v_data v)) (v_attr v), v_data v)).
  { intros l L. destruct l as [|x l]; [cbn in L; lia|]. unfold get_variable_unchecked. rewrite uefi_get_var by assumption.
    assert (E : (vlen (x :: l) <? vlen (v_data v)) = false) by (unfold vlen; lia). rewrite E. cbn [g_status g_size g_attr g_written]. rewrite over_exact by (symmetry; exact L). reflexivity. }
  assert (SM : forall l, (length l < length (v_data v))%nat ->
    get_variable_unchecked (uefi_get s) (v_name v ++ [0]) (v_guid v) (match l with [] => None | _ => Some l end) = (GTooSmall (vlen (v_data v)) (v_attr v), l)).
  { intros l L. destruct l as [|x l]; unfold get_variable_unchecked; rewrite uefi_get_var by assumption.
    - assert (E : (0 <? vlen (v_data v)) = true) by (unfold vlen; lia). rewrite E. reflexivity.
    - assert (E : (vlen (x :: l) <? vlen (v_data v)) = true) by (unfold vlen; lia). rewrite E. reflexivity. }
  set (d0 := match hint with Some n => resize [] n 0 | None => [] end).
  assert (L0 : (length d0 <= length (v_data v))%nat) by (unfold d0; destruct hint; [rewrite resize_length; lia | cbn; lia]).
  destruct (Nat.eq_dec (length d0) (length (v_data v))) as [E|E].
  - rewrite EX by exact E. reflexivity.
  - rewrite SM by lia. rewrite EX by (rewrite resize_length; unfold vlen; lia). reflexivity.
Qed.

(** With a hint above the size, what comes back is the variable followed by zero bytes up to the hint (runtime_services.rs:166-177 does not
    cut the buffer to the size that the firmware reports). *)
Theorem c71_get_hint_refuted : forall T (conv : list N -> option T) dbg s v n, store_ok s -> In v s ->
  N.of_nat (length (v_data v)) < n ->
  get_variable dbg conv (uefi_get s) (v_name v ++ [0]) (v_guid v) (Some n) =
    match conv (v_data v ++ repeat 0 (N.to_nat n - length (v_data v))) with Some d => Ok (d, v_attr v) | None => Err InvalidParameter end.
Proof.
  intros T conv dbg s v n OK I HN. unfold get_variable. rewrite terminated_nul. cbn [negb]. rewrite resize_nil.
  destruct (N.to_nat n) as [|k] eqn:K; [lia|]. cbn [repeat]. change (0 :: repeat 0 k) with (repeat 0 (S k)).
  unfold get_variable_unchecked. rewrite uefi_get_var by assumption.
  assert (E : (vlen (repeat 0 (S k)) <? vlen (v_data v)) = false) by (unfold vlen; rewrite repeat_length; lia).
  rewrite E. cbn [g_status g_size g_attr g_written].
  assert (O : over (v_data v) (repeat 0 (S k)) = v_data v ++ repeat 0 (S k - length (v_data v))).
  { unfold over. f_equal. assert (LE : (length (v_data v) <= S k)%nat) by lia. revert LE. generalize (length (v_data v)). generalize (S k).
    induction n0 as [|a IH]; intros b LE; [destruct b; reflexivity|]. destruct b as [|b]; [reflexivity|]. cbn. apply IH. lia. }
  rewrite O. reflexivity.
Qed.

(** A variable that is not there is reported so, whatever the hint. *)
Theorem c71_get_missing : forall T (conv : list N -> option T) dbg s name guid hint, In 0 name ->
  (forall v, In v s -> ~ (v_name v = cstr name /\ v_guid v = guid)) ->
  get_variable dbg conv (uefi_get s) name guid hint = Err NotFound
  /\ get_variable_size_and_attributes dbg (uefi_get s) name guid = Err NotFound.
Proof.
  intros T conv dbg s name guid hint I NV. unfold get_variable, get_variable_size_and_attributes.
  assert (HN : has_nul name = true) by (apply has_nul_in; exact I). rewrite HN. cbn [negb].
  assert (G : forall size null, uefi_get s name guid size null = GRet (Some NotFound) 0 size []).
  { intros. unfold uefi_get. rewrite find_no_var by exact NV. reflexivity. }
  unfold get_variable_unchecked. rewrite !G. split; reflexivity.
Qed.

(** Whatever the firmware does: data is only returned if the firmware reported success for a buffer of that length (no buffer if the length is zero), and it is
    what the firmware wrote, with the attributes it gave. *)
Theorem c71_get_success : forall T (conv : list N -> option T) dbg fw name guid hint d a, get_variable dbg conv fw name guid hint = Ok (d, a) ->
  exists data, let r := fw name guid (N.of_nat (length data)) (N.of_nat (length data) =? 0) in
    g_status r = None /\ a = g_attr r /\ ((length (g_written r) <= length data)%nat -> firstn (length (g_written r)) data = g_written r /\ conv data = Some d).
Proof.
  intros T conv dbg fw name guid hint d a. unfold get_variable. destruct (negb (has_nul name)); [destruct dbg; discriminate|].
  assert (A : forall l size attr l', get_variable_unchecked fw name guid (match l with [] => None | _ => Some l end) = (GSuccess size attr, l') ->
    match conv l' with Some d => Ok (d, attr) | None => Err InvalidParameter end = (Ok (d, a) : res efi_error (T * N)) ->
    exists data, let r := fw name guid (N.of_nat (length data)) (N.of_nat (length data) =? 0) in
      g_status r = None /\ a = g_attr r /\ ((length (g_written r) <= length data)%nat -> firstn (length (g_written r)) data = g_written r /\ conv data = Some d)).
  { intros l size attr l' H C. destruct (conv l') as [d'|] eqn:CV; [|discriminate]. injection C as -> ->. unfold get_variable_unchecked in H. destruct l as [|x l].
    - exists []. cbn [length N.of_nat N.eqb]. cbv zeta. destruct (fw name guid 0 true) as [st at_ sz w]. cbn [g_status g_attr g_size g_written] in *.
      destruct st as [[]|]; try discriminate. injection H as _ -> <-. split; [reflexivity|]. split; [reflexivity|]. intros L. destruct w; [|cbn in L; lia]. split; [reflexivity | exact CV].
    - destruct (fw name guid (vlen (x :: l)) false) as [st at_ sz w] eqn:F. cbn [g_status g_attr g_size g_written] in *.
      destruct st as [[]|]; try discriminate. injection H as _ -> <-. destruct (Nat.le_gt_cases (length w) (length (x :: l))) as [L|L].
      + assert (LL : length (over w (x :: l)) = length (x :: l)) by (unfold over; rewrite app_length, skipn_length; lia).
        exists (over w (x :: l)). rewrite LL. cbv zeta. unfold vlen in F. replace (N.of_nat (length (x :: l)) =? 0) with false by (cbn [length]; lia). rewrite F. cbn [g_status g_attr g_written].
        split; [reflexivity|]. split; [reflexivity|]. intros _. split; [|exact CV]. unfold over. rewrite firstn_app, firstn_all, Nat.sub_diag. cbn [firstn]. apply app_nil_r.
      + exists (x :: l). cbv zeta. unfold vlen in F. replace (N.of_nat (length (x :: l)) =? 0) with false by (cbn [length]; lia). rewrite F. cbn [g_status g_attr g_written].
        split; [reflexivity|]. split; [reflexivity|]. intros L'. lia. }
  set (l0 := match hint with Some n => resize [] n 0 | None => [] end).
  destruct (get_variable_unchecked fw name guid match l0 with [] => None | _ => Some l0 end) as [[e|size attr|size attr] l1] eqn:G1; [discriminate | | intros H; exact (A l0 size attr l1 G1 H)].
  destruct (get_variable_unchecked fw name guid match resize l1 size 10 with [] => None | _ => Some (resize l1 size 10) end) as [[e2|size2 attr2|size2 attr2] l2] eqn:G2;
    [discriminate | discriminate | intros H; exact (A _ size2 attr2 l2 G2 H)].
Qed.

(** The size and attributes of a variable are the stored ones. *)
Theorem c71_size : forall dbg s v, store_ok s -> In v s ->
  get_variable_size_and_attributes dbg (uefi_get s) (v_name v ++ [0]) (v_guid v) = Ok (N.of_nat (length (v_data v)), v_attr v).
Proof.
  intros dbg s v OK I. pose proof OK as [_ H]. destruct (H v I) as [_ [_ NE]].
  unfold get_variable_size_and_attributes, get_variable_unchecked. rewrite terminated_nul. cbn [negb]. rewrite uefi_get_var by assumption.
  assert (E : (0 <? vlen (v_data v)) = true) by (unfold vlen; destruct (v_data v); [congruence | cbn; lia]). rewrite E. reflexivity.
Qed.

(** A name without a terminating null never reaches the firmware: a debug build stops, a release build reports it. *)
Theorem c71_unterminated : forall T (conv : list N -> option T) (dbg : bool) s name guid hint attr data, ~ In 0 name ->
  (forall fw, get_variable dbg conv fw name guid hint = if dbg then Panic else Err InvalidParameter)
  /\ (forall fw, get_variable_size_and_attributes dbg fw name guid = if dbg then Panic else Err InvalidParameter)
  /\ (forall fw, set_variable dbg fw s name guid attr data = (if dbg then Panic else Err InvalidParameter, s : store)).
Proof.
  intros T conv dbg s name guid hint attr data NI.
  assert (E : has_nul name = false).
  { destruct (has_nul name) eqn:E; [|reflexivity]. exfalso. apply NI, has_nul_in. exact E. }
  unfold get_variable, get_variable_size_and_attributes, set_variable. rewrite E. cbn [negb]. destruct dbg; repeat split; reflexivity.
Qed.

Lemma map_filter_nodup : forall {A B} (f : A -> B) p l, NoDup (map f l) -> NoDup (map f (filter p l)).
Proof.
  intros A B f p. induction l as [|x l IH]; intros ND; [constructor|]. inversion ND as [|? ? NI ND']; subst. cbn.
  destruct (p x); [|apply IH; exact ND']. cbn. constructor; [|apply IH; exact ND'].
  intros I. apply NI. apply in_map_iff in I. destruct I as [y [E I]]. apply filter_In in I. rewrite <- E. apply in_map. tauto.
Qed.

(** What is written is what is then read, and the other variables stay as they are; the store stays well formed. *)
Theorem c71_set_get : forall T (conv : list N -> option T) dbg s n guid attr data s', store_ok s -> n <> [] -> ~ In 0 n -> data <> [] ->
  set_variable dbg uefi_set s (n ++ [0]) guid attr data = (Ok tt, s') ->
  store_ok s'
  /\ get_variable dbg conv (uefi_get s') (n ++ [0]) guid None = match conv data with Some d => Ok (d, attr) | None => Err InvalidParameter end
  /\ forall v, ~ (v_name v = n /\ v_guid v = guid) -> (In v s' <-> In v s).
Proof.
  intros T conv dbg s n guid attr data s' OK NE NI DE R.
  unfold set_variable in R. rewrite terminated_nul in R. cbn [negb] in R. unfold uefi_set in R. rewrite cstr_name in R by exact NI.
  destruct n as [|c n]; [congruence|]. destruct data as [|b data]; [congruence|]. injection R as R.
  set (nm := c :: n) in *. set (dt := b :: data) in *.
  assert (IN : forall v, In v s' <-> (In v s /\ is_var nm guid v = false) \/ Var nm guid attr dt = v).
  { intros v. rewrite <- R, in_app_iff, filter_In, Bool.negb_true_iff. cbn [In]. tauto. }
  assert (OK' : store_ok s').
  { destruct OK as [ND H]. split.
    - rewrite <- R, map_app. cbn [map v_name v_guid]. rewrite <- (rev_involutive (_ ++ _)), rev_app_distr. apply NoDup_rev. cbn [rev app].
      constructor; [|apply NoDup_rev, map_filter_nodup; exact ND].
      intros I. apply in_rev in I. apply in_map_iff in I. destruct I as [v [E I]]. apply filter_In in I. destruct I as [_ F].
      apply Bool.negb_true_iff in F. injection E as E1 E2.
      assert (Y : is_var nm guid v = true) by (apply is_var_spec; tauto). congruence.
    - intros v I. apply IN in I. destruct I as [[I _]|<-]; [apply H; exact I|]. cbn [v_name v_data]. repeat split; assumption. }
  split; [exact OK'|]. split.
  - apply (c71_get_partial T conv dbg s' (Var nm guid attr dt) None OK'); [apply IN; right; reflexivity | exact Logic.I].
  - intros v NV. rewrite IN. split.
    + intros [[I _]|<-]; [exact I | exfalso; apply NV; split; reflexivity].
    + intros I. left. split; [exact I|]. destruct (is_var nm guid v) eqn:E; [|reflexivity]. exfalso. apply NV, is_var_spec. exact E.
Qed.

(** ** Enumeration *)

(** Over a firmware that does not look where the name ends, a walk from the start sees every variable once, in order, and ends. *)
Theorem c71_walk_partial : forall s fuel, store_ok s -> (length s < fuel)%nat ->
  walk (uefi_next false s) fuel new_from_first = Ok (map (fun v => (v_name v, v_guid v)) s).
Proof.
  intros s fuel OK L. apply (walk_rest s s OK); [reflexivity | left; reflexivity | reflexivity | exists []; reflexivity | exact L].
Qed.
(** A walk from a variable sees those after it. *)
Theorem c71_walk_from_partial : forall pre v rest fuel, store_ok (pre ++ v :: rest) -> (length rest < fuel)%nat ->
  walk (uefi_next false (pre ++ v :: rest)) fuel (new_from_variable (v_name v ++ [0]) (v_guid v)) = Ok (map (fun v => (v_name v, v_guid v)) rest).
Proof.
  intros pre v rest fuel OK L. pose proof OK as [_ H].
  apply (walk_rest _ rest OK); cbn [new_from_variable i_finished i_current fst snd].
  - reflexivity.
  - apply in_or_app. right. left. reflexivity.
  - apply pos_split; [exact OK|]. apply cstr_name. apply H. apply in_or_app. right. left. reflexivity.
  - exists (pre ++ [v]). rewrite <- app_assoc. reflexivity.
  - exact L.
Qed.
(** One step: the name found, up to its null, and the GUID are those of the next variable; at the end, NOT_FOUND. *)
Theorem c71_next_partial : forall dbg pre v rest, store_ok (pre ++ v :: rest) ->
  match rest with
  | w :: _ => exists buf, get_next_variable_name dbg (uefi_next false (pre ++ v :: rest)) (v_name v ++ [0]) (v_guid v) = Ok (buf, v_guid w) /\ cstr buf = v_name w
  | [] => get_next_variable_name dbg (uefi_next false (pre ++ v :: rest)) (v_name v ++ [0]) (v_guid v) = Err NotFound
  end.
Proof.
  intros dbg pre v rest OK. pose proof OK as [_ H].
  assert (IV : In v (pre ++ v :: rest)) by (apply in_or_app; right; left; reflexivity).
  assert (I : In 0 (v_name v ++ [0])) by (apply in_or_app; right; left; reflexivity).
  pose proof (next_step (pre ++ v :: rest) _ (v_guid v) [] I) as ST.
  rewrite pos_split in ST; [|exact OK | apply cstr_name, H; exact IV].
  unfold get_next_variable_name. destruct (v_name v ++ [0]) as [|c l] eqn:E; [destruct (v_name v); discriminate|].
  destruct rest as [|w rest].
  - destruct ST as [buf [R _]]. rewrite R. reflexivity.
  - destruct ST as [buf [R [C _]]]. { apply H. apply in_or_app. right. right. left. reflexivity. }
    exists buf. rewrite R. split; [reflexivity | exact C].
Qed.

(** The size is told in characters where the firmware reads bytes (runtime_services.rs:383).  A firmware that checks that the name ends within
    the size refuses the first step of every walk from the start, ... *)
Theorem c71_walk_strict_refuted : forall s fuel, walk (uefi_next true s) (S fuel) new_from_first = Err InvalidParameter.
Proof. reflexivity. Qed.
(** ... and every step from a variable. *)
Theorem c71_next_strict_refuted : forall dbg s v, v_name v <> [] -> ~ In 0 (v_name v) ->
  get_next_variable_name dbg (uefi_next true s) (v_name v ++ [0]) (v_guid v) = Err InvalidParameter.
Proof.
  intros dbg s v NE NI. unfold get_next_variable_name. destruct (v_name v ++ [0]) as [|c l] eqn:E; [destruct (v_name v); discriminate|].
  rewrite <- E. clear c l E. unfold get_next_variable_name_unchecked.
  assert (L : (0 < length (v_name v))%nat) by (destruct (v_name v); [congruence | cbn; lia]).
  assert (LT : Nat.ltb (length (@nil N)) (length (v_name v ++ [0])) = true) by (apply Nat.ltb_lt; rewrite app_length; cbn; lia).
  rewrite LT. set (n0 := resize [] (vlen (v_name v ++ [0])) 0).
  assert (OV : over (v_name v ++ [0]) n0 = v_name v ++ [0]) by (apply over_exact; unfold n0; rewrite resize_length; unfold vlen; lia).
  rewrite OV.
  assert (U : forall r, existsb (N.eqb 0) (firstn (N.to_nat (vlen (v_name v ++ [0]) / 2)) (v_name v ++ [0])) = r -> r = false ->
    uefi_next true s (vlen (v_name v ++ [0])) (v_name v ++ [0]) (v_guid v) = NRet (Some InvalidParameter) (vlen (v_name v ++ [0])) [] (v_guid v)).
  { intros r E1 E2. unfold uefi_next. rewrite E1, E2. reflexivity. }
  assert (X : existsb (N.eqb 0) (firstn (N.to_nat (vlen (v_name v ++ [0]) / 2)) (v_name v ++ [0])) = false).
  { destruct (existsb _ _) eqn:X; [|reflexivity]. exfalso. apply NI. apply has_nul_in in X.
    rewrite firstn_app in X. assert (LE : Nat.le (N.to_nat (vlen (v_name v ++ [0]) / 2)) (length (v_name v))).
    { unfold vlen. rewrite app_length. cbn [length]. pose proof (N.div_le_upper_bound (N.of_nat (length (v_name v) + 1)) 2 (N.of_nat (length (v_name v)))). lia. }
    replace (Nat.sub (N.to_nat (vlen (v_name v ++ [0]) / 2)) (length (v_name v))) with O in X by lia. cbn [firstn] in X. rewrite app_nil_r in X.
    rewrite <- (firstn_skipn (N.to_nat (vlen (v_name v ++ [0]) / 2)) (v_name v)). apply in_or_app. left. exact X. }
  rewrite (U _ X eq_refl). reflexivity.
Qed.

(** What follows the null in the name found is what was there before: the buffer is not cut to the name. *)
Theorem c71_tail_refuted : exists s v w buf, store_ok s /\ s = [v; w]
  /\ get_next_variable_name true (uefi_next false s) (v_name v ++ [0]) (v_guid v) = Ok (buf, v_guid w) /\ buf <> v_name w ++ [0].
Proof.
  exists [Var [76; 97; 110; 103] [1] 7 [1]; Var [65] [1] 7 [2]], (Var [76; 97; 110; 103] [1] 7 [1]), (Var [65] [1] 7 [2]), [65; 0; 110; 103; 0].
  split; [|split; [reflexivity | split; [reflexivity | discriminate]]].
  split; [cbn; constructor; [intros [E|[]]; discriminate | constructor; [intros [] | constructor]]|].
  intros v [<-|[<-|[]]]; cbn; (split; [discriminate | split; [|discriminate]]); intros X;
    repeat (destruct X as [X|X]; [discriminate|]); destruct X.
Qed.

(** A firmware that fails without touching the name leaves the walk where it was: the next step goes on from the same variable. *)
Theorem c71_retry : forall fw it e it', In 0 (fst (i_current it)) -> i_finished it = false ->
  (forall size buf g, n_status (fw size buf g) <> None -> n_written (fw size buf g) = [] /\ n_guid (fw size buf g) = g) ->
  advance fw it = Ok (Some e, it') ->
  cstr (fst (i_current it')) = cstr (fst (i_current it)) /\ snd (i_current it') = snd (i_current it)
  /\ In 0 (fst (i_current it')) /\ i_finished it' = false.
Proof.
  intros fw it e it' I F Q A. unfold advance in A. rewrite F in A.
  destruct (get_next_variable_name_unchecked fw (fst (i_current it)) (snd (i_current it)) (fst (i_next it))) as [[[st name] ns]|e'|] eqn:G; [|discriminate|discriminate].
  assert (AB : st = Some e /\ it' = Iter (name, ns) (i_current it) false).
  { destruct st as [e2|]; [destruct e2|]; injection A as A1 A2; try discriminate; subst; split; reflexivity. }
  destruct AB as [-> ->]. cbn [i_current i_finished fst snd]. clear A.
  unfold get_next_variable_name_unchecked in G.
  set (n0 := if (length (fst (i_next it)) <? length (fst (i_current it)))%nat then resize (fst (i_next it)) (vlen (fst (i_current it))) 0 else fst (i_next it)) in G.
  set (n1 := over (fst (i_current it)) n0) in G.
  destruct (n_status (fw (vlen n1) n1 (snd (i_current it)))) as [e1|] eqn:S1; [|discriminate].
  assert (S1' : n_status (fw (vlen n1) n1 (snd (i_current it))) <> None) by congruence.
  destruct (Q _ _ _ S1') as [W1 G1]. rewrite W1, over_nil in G.
  assert (FIN : forall b, cstr (over (fst (i_current it)) b) = cstr (fst (i_current it)) /\ In 0 (over (fst (i_current it)) b))
    by (intros; split; [apply cstr_over | apply in_over]; exact I).
  destruct e1;
    lazymatch type of G with
    | (if ?c then _ else _) = _ =>
        destruct c; [discriminate|];
        injection G as E1 E2 E3;
        assert (S2 : n_status (fw (n_size (fw (vlen n1) n1 (snd (i_current it)))) (over (fst (i_current it)) (resize n1 (n_size (fw (vlen n1) n1 (snd (i_current it)))) 0)) (snd (i_current it))) <> None) by congruence;
        destruct (Q _ _ _ S2) as [W2 G2]; rewrite W2, over_nil in E2; rewrite G2 in E3; subst name ns;
        split; [apply FIN | split; [reflexivity | split; [apply FIN | reflexivity]]]
    | _ =>
        injection G as E1 E2 E3; rewrite G1 in E3; subst name ns; unfold n1;
        split; [apply FIN | split; [reflexivity | split; [apply FIN | reflexivity]]]
    end.
Qed.

(** ** Concrete cases *)

Definition demo_vars : store :=
  [Var [66; 111; 111; 116] (repeat 1 16) 7 [1; 2; 3]; Var [65] (repeat 2 16) 3 [9]; Var [76; 97; 110; 103; 67; 111; 100; 101; 115] (repeat 1 16) 6 [101; 110]].
Example c71_demo_ok : store_ok demo_vars.
Proof.
  split.
  - cbn. repeat constructor; cbn; intros X; repeat (destruct X as [X|X]; [discriminate|]); destruct X.
  - intros v [<-|[<-|[<-|[]]]]; cbn; (split; [discriminate | split; [|discriminate]]); intros X;
      repeat (destruct X as [X|X]; [discriminate|]); destruct X.
Qed.
Example c71_demo_get : get_variable true Some (uefi_get demo_vars) [66; 111; 111; 116; 0] (repeat 1 16) (Some 2) = Ok ([1; 2; 3], 7).
Proof. reflexivity. Qed.
Example c71_demo_hint : get_variable true Some (uefi_get demo_vars) [66; 111; 111; 116; 0] (repeat 1 16) (Some 5) = Ok ([1; 2; 3; 0; 0], 7).
Proof. reflexivity. Qed.
Example c71_demo_walk : walk (uefi_next false demo_vars) 4 new_from_first
  = Ok [([66; 111; 111; 116], repeat 1 16); ([65], repeat 2 16); ([76; 97; 110; 103; 67; 111; 100; 101; 115], repeat 1 16)].
Proof. reflexivity. Qed.
Example c71_demo_set : fst (set_variable true uefi_set demo_vars [65; 0] (repeat 2 16) 3 [5; 5]) = Ok tt.
Proof. reflexivity. Qed.
Example c71_demo_retry : exists it', advance (fun size buf g => NRet (Some DeviceError) size [] g) new_from_first = Ok (Some DeviceError, it')
  /\ walk (uefi_next false demo_vars) 4 it' = walk (uefi_next false demo_vars) 4 new_from_first.
Proof. eexists. split; reflexivity. Qed.

Print Assumptions c71_get_partial.
Print Assumptions c71_get_success.
Print Assumptions c71_get_hint_refuted.
Print Assumptions c71_get_missing.
Print Assumptions c71_size.
Print Assumptions c71_unterminated.
Print Assumptions c71_set_get.
Print Assumptions c71_walk_partial.
Print Assumptions c71_walk_from_partial.
Print Assumptions c71_next_partial.
Print Assumptions c71_walk_strict_refuted.
Print Assumptions c71_next_strict_refuted.
Print Assumptions c71_tail_refuted.
Print Assumptions c71_retry.
