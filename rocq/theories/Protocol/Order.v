(** Creation order of handles and [locate_handles]. *)
From Coq Require Import Sorted Permutation.
From Verif Require Import Base.Prelude Base.Omap Protocol.Model Protocol.Spec Protocol.Proofs.
Local Open Scope N_scope.

Lemma created_lt tr h n : created tr h = Some n -> (n < length tr)%nat.
Proof.
  induction tr as [|[o r] t IH]; cbn [created length]; [discriminate|].
  assert (forall m, Some (length t) = Some m -> (m < S (length t))%nat) by (intros m Hm; injection Hm as <-; lia).
  assert (created t h = Some n -> (n < S (length t))%nat) by (intros; apply IH in H0; lia).
  destruct o; auto. destruct h0; auto. destruct r; auto. destruct (h =? h0); auto.
Qed.

Definition ord_inv (tr : list pcall) (d : pdb) : Prop :=
  (forall h hd, om_get (p_handles d) h = Some hd -> exists n, created tr h = Some n) /\
  (forall h1 hd1 h2 hd2 n1 n2,
     om_get (p_handles d) h1 = Some hd1 -> om_get (p_handles d) h2 = Some hd2 ->
     created tr h1 = Some n1 -> created tr h2 = Some n2 ->
     (h_order hd1 < h_order hd2 <-> (n1 < n2)%nat) /\ (h_order hd1 = h_order hd2 -> h1 = h2)).

Lemma ord_inv_sub tr tr' d d' :
  ord_inv tr d -> (forall h, created tr' h = created tr h) ->
  (forall h hd', om_get (p_handles d') h = Some hd' ->
     exists hd, om_get (p_handles d) h = Some hd /\ h_order hd' = h_order hd) ->
  ord_inv tr' d'.
Proof.
  intros [A B] Hc Hs. split.
  - intros h hd' H. apply Hs in H. destruct H as (hd & H & _). rewrite Hc. eapply A; eauto.
  - intros h1 hd1 h2 hd2 n1 n2 H1 H2. rewrite !Hc. apply Hs in H1, H2.
    destruct H1 as (x1 & H1 & ->), H2 as (x2 & H2 & ->). apply B; auto.
Qed.

Lemma hist_ord tr d : hist tr d -> ord_inv tr d.
Proof.
  induction 1 as [seed fuel|tr d o r d' H IH Hs].
  - split; cbn; intros; discriminate.
  - pose proof (hist_pinv _ _ H) as Hp.
    assert (Hsame : d' = d -> (forall h, created ((o, r) :: tr) h = created tr h) -> ord_inv ((o, r) :: tr) d').
    { intros -> Hc. eapply ord_inv_sub; eauto. }
    destruct o; cbn [pstep] in Hs; try (injection Hs as <- <-; apply Hsame; reflexivity).
    + destruct (install_effect _ _ _ _ _ _ Hp Hs) as [(key & evs & -> & He)|(E & [(e & ->)|(-> & ->)])].
      2, 3: apply Hsame; [exact E|]; intros; destruct h; reflexivity.
      destruct He as [_ _ _ _ _ _ (ord & ps & Hg & Hc)]. destruct h as [h|].
      * destruct Hc as (-> & Hc & _). eapply ord_inv_sub; [exact IH|reflexivity|].
        intros h' hd'. rewrite Hg. destruct (h' =? key) eqn:E; [|eauto].
        assert (h' = key) by lia. subst h'. intros Hx. injection Hx as <-. eexists. split; [exact Hc|reflexivity].
      * destruct Hc as (_ & Hk & _ & -> & Hlt & _). destruct IH as [A B]. split.
        -- intros h' hd'. rewrite Hg. cbn [created]. destruct (h' =? key); [eauto|apply A].
        -- intros h1 hd1 h2 hd2 n1 n2. rewrite !Hg. cbn [created].
           destruct (h1 =? key) eqn:E1, (h2 =? key) eqn:E2; intros G1 G2 C1 C2.
           ++ injection G1 as <-. injection G2 as <-. injection C1 as <-. injection C2 as <-. split; [lia|]. intros _. lia.
           ++ injection G1 as <-. injection C1 as <-. cbn [h_order].
              pose proof (pv_ord _ Hp _ _ G2). pose proof (created_lt _ _ _ C2). split; [lia|]. intros; lia.
           ++ injection G2 as <-. injection C2 as <-. cbn [h_order].
              pose proof (pv_ord _ Hp _ _ G1). pose proof (created_lt _ _ _ C1). split; [lia|]. intros; lia.
           ++ eapply B; eauto.
    + destruct (uninstall_effect _ _ _ _ _ _ Hp Hs) as [(-> & He)|(E & (e & ->))]; [|apply Hsame; [exact E|reflexivity]].
      eapply ord_inv_sub; [exact IH|reflexivity|]. intros h' hd' Hg. apply (re_hnd _ _ _ _ _ He) in Hg.
      destruct Hg as (hd & G & O & _). eauto.
    + destruct (open_effect _ _ _ _ _ _ _ _ Hs) as [E|(f & _ & ->)]; [apply Hsame; [exact E|reflexivity]|].
      eapply ord_inv_sub; [exact IH|reflexivity|]. intros h' hd' Hg. apply upd_hnd in Hg. destruct Hg as (hd & G & O & _). eauto.
    + destruct (close_effect _ _ _ _ _ _ _ _ Hs) as [E|(f & ->)]; [apply Hsame; [exact E|reflexivity]|].
      eapply ord_inv_sub; [exact IH|reflexivity|]. intros h' hd' Hg. apply upd_hnd in Hg. destruct Hg as (hd & G & O & _). eauto.
    + unfold register_notify in Hs. injection Hs as <- <-. eapply ord_inv_sub; [exact IH|reflexivity|]. cbn [p_handles]. eauto.
    + injection Hs as <- <-. eapply ord_inv_sub; [exact IH|reflexivity|].
      destruct (unregister_same evs d) as (-> & _). eauto.
    + pose proof (next_handle_same d r0) as (A & _). destruct (next_handle d r0) as [x y]. injection Hs as <- <-. cbn [snd] in A.
      eapply ord_inv_sub; [exact IH|reflexivity|]. rewrite A. eauto.
    + injection Hs as <- <-. eapply ord_inv_sub; [exact IH|reflexivity|]. cbn [enable_handle_hashing p_handles]. eauto.
Qed.

(** The sort. *)
Lemma ins_by_perm x l : Permutation (ins_by x l) (x :: l).
Proof.
  induction l as [|y t IH]; cbn [ins_by]; [apply Permutation_refl|].
  destruct (snd x <=? snd y); [apply Permutation_refl|].
  eapply Permutation_trans; [apply perm_skip; exact IH|apply perm_swap].
Qed.
Lemma sort_by_perm l : Permutation (sort_by l) l.
Proof.
  induction l as [|x t IH]; cbn [sort_by]; [apply Permutation_refl|].
  eapply Permutation_trans; [apply ins_by_perm|]. apply perm_skip. exact IH.
Qed.
Definition le_snd (a b : N * N) : Prop := snd a <= snd b.
Lemma ins_by_sorted x l : StronglySorted le_snd l -> StronglySorted le_snd (ins_by x l).
Proof.
  induction 1 as [|y t Hs IH HF]; cbn [ins_by]; [constructor; constructor|].
  destruct (snd x <=? snd y) eqn:E.
  - constructor; [constructor; assumption|]. constructor; [unfold le_snd; lia|].
    rewrite Forall_forall in *. intros z Hz. specialize (HF _ Hz). unfold le_snd in *. lia.
  - constructor; [exact IH|]. rewrite Forall_forall in *. intros z Hz.
    apply (Permutation_in _ (ins_by_perm x t)) in Hz. destruct Hz as [<-|Hz]; [unfold le_snd; lia|auto].
Qed.
Lemma sort_by_sorted l : StronglySorted le_snd (sort_by l).
Proof. induction l; cbn [sort_by]; [constructor|]. apply ins_by_sorted. assumption. Qed.

Lemma strongly_sorted_map {A B} (f : A -> B) (R : A -> A -> Prop) (S : B -> B -> Prop) l :
  (forall a b, In a l -> In b l -> f a <> f b -> R a b -> S (f a) (f b)) ->
  NoDup (map f l) -> StronglySorted R l -> StronglySorted S (map f l).
Proof.
  induction l as [|a t IH]; intros Hm Hn Hs; cbn [map]; [constructor|].
  inversion Hs as [|? ? Hs' HF]; subst. inversion Hn as [|? ? Ha Hn']; subst.
  constructor.
  - apply IH; [|exact Hn'|exact Hs']. intros x y Hx Hy. apply Hm; right; assumption.
  - rewrite Forall_forall in *. intros y Hy. apply in_map_iff in Hy. destruct Hy as (x & <- & Hx).
    apply Hm; [left; reflexivity|right; exact Hx| |auto].
    intros E. apply Ha. rewrite E. apply in_map. exact Hx.
Qed.

Definition has_protocol (tr : list pcall) (h : N) (g : option N) : Prop :=
  match g with Some g => exists i, installed tr h g = Some i | None => live tr h end.

Definition selected (g : option N) (kh : N * hnd) : bool :=
  match g with None => true | Some g => om_mem (h_prots (snd kh)) g end.

Lemma locate_list tr d g :
  hist tr d ->
  let l := map fst (sort_by (map (fun kh => (fst kh, h_order (snd kh))) (filter (selected g) (p_handles d)))) in
  NoDup l /\ (forall h, In h l <-> has_protocol tr h g) /\ StronglySorted (created_before tr) l.
Proof.
  intros H l. pose proof (hist_pinv _ _ H) as Hp. pose proof (hist_ord _ _ H) as [Oa Ob].
  set (l0 := map (fun kh => (fst kh, h_order (snd kh))) (filter (selected g) (p_handles d))) in *.
  assert (Hperm : Permutation l (map fst l0)) by (apply Permutation_map, sort_by_perm).
  assert (E0 : map fst l0 = map fst (filter (selected g) (p_handles d))).
  { unfold l0. rewrite map_map. apply map_ext. reflexivity. }
  assert (Hnd : NoDup l).
  { eapply Permutation_NoDup; [apply Permutation_sym; exact Hperm|]. rewrite E0.
    pose proof (om_keys_nodup _ (pv_hs _ Hp)) as Hk. unfold om_keys in Hk. clear - Hk.
    induction (p_handles d) as [|x t IH]; cbn [filter map]; [constructor|]. cbn [map] in Hk. inversion Hk as [|? ? Ha Hb]; subst.
    destruct (selected g x); [|auto]. cbn [map]. constructor; [|auto]. intros Hin. apply Ha.
    apply in_map_iff in Hin. destruct Hin as (y & <- & Hy). apply filter_In in Hy. apply in_map, Hy. }
  split; [exact Hnd|]. split.
  - intros h. assert (In h l <-> In h (map fst l0)) as ->.
    { split; apply Permutation_in; [exact Hperm|apply Permutation_sym; exact Hperm]. }
    rewrite E0, in_map_iff. split.
    + intros ([k hd] & <- & Hin). apply filter_In in Hin. destruct Hin as [Hin Hsel]. cbn [fst].
      apply om_in_get in Hin; [|apply pv_hs, Hp]. destruct g as [g|]; cbn [has_protocol selected snd] in *.
      * pose proof (hist_iface _ _ H k g) as Hi. unfold get_inst in Hi. rewrite Hin in Hi. unfold om_mem in Hsel.
        destruct (om_get (h_prots hd) g); [|discriminate]. cbn in Hi. eauto.
      * apply (hist_live _ _ _ H). congruence.
    + intros Hh. assert (Hl : live tr h) by (destruct g; [destruct Hh as [i Hi]; exists n, i; exact Hi|exact Hh]).
      apply (hist_live _ _ _ H) in Hl. destruct (om_get (p_handles d) h) as [hd|] eqn:G; [|congruence].
      exists (h, hd). split; [reflexivity|]. apply filter_In. split; [apply om_get_in; exact G|].
      destruct g as [g|]; cbn [selected snd has_protocol] in *; [|reflexivity].
      destruct Hh as [i Hi]. rewrite <- (hist_iface _ _ H) in Hi. unfold get_inst in Hi. rewrite G in Hi.
      unfold om_mem. destruct (om_get (h_prots hd) g); [reflexivity|discriminate].
  - unfold l. eapply strongly_sorted_map; [|exact Hnd|apply sort_by_sorted].
    intros [a oa] [b ob] Ha Hb. cbn [fst]. intros Hne Hle. unfold le_snd in Hle. cbn [snd] in Hle.
    apply (Permutation_in _ (sort_by_perm _)) in Ha, Hb. unfold l0 in Ha, Hb. apply in_map_iff in Ha, Hb.
    destruct Ha as ([a' ha] & Ea & Ha), Hb as ([b' hb] & Eb & Hb). cbn [fst snd] in *.
    injection Ea as -> <-. injection Eb as -> <-.
    apply filter_In in Ha, Hb. destruct Ha as [Ha _], Hb as [Hb _].
    apply om_in_get in Ha; [|apply pv_hs, Hp]. apply om_in_get in Hb; [|apply pv_hs, Hp].
    unfold created_before. destruct (Oa _ _ Ha) as [na Ca], (Oa _ _ Hb) as [nb Cb]. rewrite Ca, Cb.
    destruct (Ob _ _ _ _ _ _ Ha Hb Ca Cb) as [O1 O2]. apply O1.
    assert (h_order ha <> h_order hb) by (intros E; apply Hne, O2, E). lia.
Qed.
