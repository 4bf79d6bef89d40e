(** Reading an image to load: what holds and what does not. *)
From Verif Require Import Base.Prelude Base.Bytes File.Model File.Spec.
From Coq Require Import Lia ZifyBool ZifyNat ZifyN.
Local Open Scope N_scope.

(** ** Files *)

Lemma filled_all : forall l, filled (len l) l = l.
Proof. intros l. unfold filled, len. rewrite Nnat.Nat2N.id, firstn_app, Nat.sub_diag, firstn_O, firstn_all, app_nil_r. reflexivity. Qed.
Lemma info_ok : forall o info content, file_ok o info content -> get_info o = Ok info.
Proof.
  intros o info content (I & _). unfold get_info. rewrite I. cbn [andb]. change (2 ^ 63 + 5 =? BUFFER_TOO_SMALL) with true. cbv iota beta. rewrite I. cbn [andb]. rewrite N.leb_refl. cbn [N.eqb]. rewrite filled_all. reflexivity.
Qed.
Lemma chunks : forall info size attr, info_says info size attr -> chunk8 1 info = Some (le_bytes 8 size) /\ chunk8 9 info = Some (le_bytes 8 attr).
Proof.
  intros info size attr (L & S & A & a & b & c & d & E & LA & LB). unfold len in L. unfold chunk8.
  replace (Nat.leb (8 * 2) (length info)) with true by lia. replace (Nat.leb (8 * 10) (length info)) with true by lia.
  assert (T : forall i (x y z : list N), info = x ++ y ++ z -> length x = (8 * i)%nat -> length y = 8%nat -> firstn 8 (skipn (8 * i) info) = y).
  { intros i x y z -> LX LY. rewrite <- LX, skipn_app, skipn_all, Nat.sub_diag. cbn [app skipn]. rewrite firstn_app, <- LY, firstn_all, Nat.sub_diag, firstn_O, app_nil_r. reflexivity. }
  split; f_equal.
  - apply (T 1%nat a _ (b ++ le_bytes 8 attr ++ c :: d)); [exact E | exact LA | reflexivity].
  - apply (T 9%nat (a ++ le_bytes 8 size ++ b) _ (c :: d)); [rewrite E, <- !app_assoc; reflexivity | rewrite !app_length, LA, LB; reflexivity | reflexivity].
Qed.
(** C88: a file is read as a whole. *)
Theorem c88_file : forall o info content attr, file_ok o info content -> info_says info (len content) attr -> N.land attr 0x10 = 0 -> file_read o = Ok content.
Proof.
  intros o info content attr F I D. pose proof (chunks _ _ _ I) as [C1 C9]. pose proof (info_ok _ _ _ F) as GI. destruct I as (_ & LS & LA & _). destruct F as (_ & P & R).
  unfold file_read, get_attribute, get_size. rewrite GI. cbn [bind]. rewrite C9, C1. cbn [bind]. rewrite !(le_val_bytes 8) by assumption. rewrite D, P, R. cbn [N.eqb negb].
  rewrite N.min_id, N.ltb_irrefl. unfold len at 3. rewrite Nnat.Nat2N.id, firstn_all, filled_all. unfold len. rewrite Nnat.Nat2N.id, firstn_all. reflexivity.
Qed.
(** C88: a directory is no file. *)
Theorem c88_directory : forall o info content size attr, file_ok o info content -> info_says info size attr -> N.land attr 0x10 <> 0 -> file_read o = Err (2 ^ 63 + 14).
Proof.
  intros o info content size attr F I D. pose proof (chunks _ _ _ I) as [C1 C9]. pose proof (info_ok _ _ _ F) as GI. destruct I as (_ & LS & LA & _).
  unfold file_read, get_attribute. rewrite GI. cbn [bind]. rewrite C9. cbn [bind]. rewrite (le_val_bytes 8) by assumption. destruct (N.land attr 0x10 =? 0) eqn:E; [lia|]. reflexivity.
Qed.
(** C88: if the file is now shorter than its info said, what there is is given, without padding; if it is longer, as much as the info said. *)
Theorem c88_changed : forall o info content size attr, file_ok o info content -> info_says info size attr -> N.land attr 0x10 = 0 ->
  file_read o = Ok (firstn (N.to_nat size) content).
Proof.
  intros o info content size attr F I D. pose proof (chunks _ _ _ I) as [C1 C9]. pose proof (info_ok _ _ _ F) as GI. destruct I as (_ & LS & LA & _). destruct F as (_ & P & R).
  unfold file_read, get_attribute, get_size. rewrite GI. cbn [bind]. rewrite C9, C1. cbn [bind]. rewrite !(le_val_bytes 8) by assumption. rewrite D, P, R. cbn [N.eqb negb].
  destruct (size <? N.min size (len content)) eqn:E; [lia|]. f_equal. unfold filled. rewrite firstn_firstn, firstn_app. unfold len in *.
  rewrite firstn_length. replace (Nat.min (N.to_nat (N.min size (N.of_nat (length content)))) (N.to_nat size)) with (Nat.min (N.to_nat size) (length content)) by lia.
  rewrite Nat.sub_diag, firstn_O, app_nil_r. rewrite firstn_firstn. destruct (Nat.le_gt_cases (N.to_nat size) (length content)) as [L | L].
  - f_equal. lia.
  - rewrite !firstn_all2 by lia. reflexivity.
Qed.
(** Any answer but a success ends in an error; only a driver that claims to have read more than there was room for makes it panic. *)
Theorem c88_panic : forall o, file_read o = Panic -> exists size n bytes, f_read o size = (0, n, bytes) /\ size < n.
Proof.
  intros o H. unfold file_read, get_attribute, get_size, get_info in H. destruct (f_info o false 0) as [[s n] b]. destruct (s =? BUFFER_TOO_SMALL); [|destruct (s =? 0); discriminate].
  destruct (f_info o true n) as [[s' n'] b']. destruct (s' =? 0); cbn [bind] in H; [|discriminate]. destruct (chunk8 9 (filled n b')); cbn [bind] in H; [|discriminate].
  destruct (negb (N.land (le_val l) 16 =? 0)); [discriminate|]. destruct (chunk8 1 (filled n b')) as [c|]; cbn [bind] in H; [|discriminate]. destruct (negb (f_setpos o 0 =? 0)); [discriminate|].
  destruct (f_read o (le_val c)) as [[s2 n2] b2] eqn:R. destruct (s2 =? 0) eqn:Z; cbn [negb] in H; [|discriminate]. destruct (le_val c <? n2) eqn:L; [|discriminate].
  exists (le_val c), n2, b2. split; [rewrite R; apply N.eqb_eq in Z; subst; reflexivity | lia].
Qed.

(** ** Paths *)

Lemma u16s_name : forall name, Forall (fun c => c < 2 ^ 16) name -> u16s (flat_map (fun c => [c mod 256; c / 256]) name) = name.
Proof.
  intros name H. induction H as [|c l C H IH]; [reflexivity|]. cbn [flat_map app u16s]. rewrite IH. f_equal. pose proof (N.div_mod c 256 ltac:(discriminate)). lia.
Qed.
Lemma cstr_name : forall name, name_ok name -> cstr (name ++ [0]) = Some name.
Proof. intros name H. induction H as [|c l C H IH]; [reflexivity|]. cbn [app cstr]. destruct (c =? 0) eqn:Z; [lia|]. rewrite IH. reflexivity. Qed.
(** C88: the names of a path are looked up one after the other, from the root, as they are; what follows the end is not looked at. *)
Theorem c88_path : forall F (look : F -> list N -> res N F) names f more opened, Forall name_ok names ->
  fst (open_path (driver_open look) (map name_node names ++ end_node :: more) f opened) = resolve look names f.
Proof.
  intros F look names f more opened H. revert f opened. induction H as [|n names N H IH]; intros f opened; [reflexivity|].
  cbn [map app open_path name_node N.eqb Pos.eqb andb]. rewrite u16s_name.
  - unfold driver_open at 1. rewrite cstr_name by exact N. cbn [resolve]. destruct (look f n) as [g| |]; [apply IH | reflexivity | reflexivity].
  - apply Forall_app. split; [|constructor; [reflexivity | constructor]]. eapply Forall_impl; [|exact N]. intros c C. cbn in C. lia.
Qed.
(** C88: the content is that of the file the path names. *)
Theorem c88_sfs : forall F (ops : F -> file) (look : F -> list N -> res N F) root names f info content attr, Forall name_ok names -> resolve look names root = Ok f ->
  file_ok (ops f) info content -> info_says info (len content) attr -> N.land attr 0x10 = 0 ->
  fst (from_sfs ops (driver_open look) (Ok root) (map name_node names ++ [end_node])) = Ok content.
Proof.
  intros F ops look root names f info content attr N R FO I D. unfold from_sfs. pose proof (c88_path F look names root [] [root] N) as P. rewrite R in P.
  destruct (open_path (driver_open look) (map name_node names ++ [end_node]) root [root]) as [r opened]. cbn [fst] in P. subst r. cbn [fst]. eapply c88_file; eassumption.
Qed.
(** A node of any other kind is refused. *)
Theorem c88_other_nodes : forall F (open : F -> list N -> res N F) t sub data nodes f opened, t <> 0x7F -> (t <> 4 \/ sub <> 4) ->
  fst (open_path open ((t, sub, data) :: nodes) f opened) = Err (2 ^ 63 + 3).
Proof.
  intros F open t sub data nodes f opened T S. cbn [open_path]. replace ((t =? 4) && (sub =? 4)) with false by lia. replace (t =? 127) with false by lia. reflexivity.
Qed.
(** Not so: a name that is not terminated within its node.  The driver reads on behind the copy. *)
Theorem c88_unterminated_refuted : forall F (look : F -> list N -> res N F) name nodes f opened, name_ok name ->
  fst (open_path (driver_open look) ((4, 4, flat_map (fun c => [c mod 256; c / 256]) name) :: nodes) f opened) = Panic.
Proof.
  intros F look name nodes f opened H. cbn [open_path N.eqb Pos.eqb andb]. rewrite u16s_name by (eapply Forall_impl; [|exact H]; intros c C; cbn in C; lia). unfold driver_open.
  assert (C : cstr name = None) by (induction H as [|c l C H IH]; [reflexivity|]; cbn [cstr]; destruct (c =? 0) eqn:Z; [lia|]; rewrite IH; reflexivity). rewrite C. reflexivity.
Qed.
Lemma open_left : forall F (look : F -> list N -> res N F) names f more opened g, Forall name_ok names -> resolve look names f = Ok g ->
  length (snd (open_path (driver_open look) (map name_node names ++ end_node :: more) f opened)) = (length names + length opened)%nat.
Proof.
  intros F look names f more opened g H. revert f opened. induction H as [|n names N H IH]; intros f opened R; [reflexivity|].
  cbn [map app open_path name_node N.eqb Pos.eqb andb]. rewrite u16s_name.
  - unfold driver_open at 1. rewrite cstr_name by exact N. cbn [resolve] in R. destruct (look f n) as [k| |]; [|discriminate|discriminate]. rewrite (IH k (k :: opened) R). cbn [length]. lia.
  - apply Forall_app. split; [|constructor; [reflexivity | constructor]]. eapply Forall_impl; [|exact N]. intros c C. cbn in C. lia.
Qed.
(** Not so: that files are closed.  Every load from a file system leaves the root and each directory and file on the way open. *)
Theorem c88_close_refuted : forall F (ops : F -> file) (look : F -> list N -> res N F) root names f, Forall name_ok names -> resolve look names root = Ok f ->
  length (snd (from_sfs ops (driver_open look) (Ok root) (map name_node names ++ [end_node]))) = S (length names).
Proof.
  intros F ops look root names f N R. unfold from_sfs. pose proof (c88_path F look names root [] [root] N) as P. pose proof (open_left F look names root [] [root] f N R) as L.
  destruct (open_path (driver_open look) (map name_node names ++ [end_node]) root [root]) as [r opened]. cbn [fst snd] in *. rewrite P, R. cbn [snd]. rewrite L. cbn [length]. lia.
Qed.

(** ** LoadFile and volumes *)

(** C88: a LoadFile driver is asked with the caller's policy, and its content is given as a whole; LoadFile2 is for what is not a boot option. *)
Theorem c88_load : forall proto bp call content,
  (forall b n, call bp b n = if b && (len content <=? n) then (0, len content, content) else (2 ^ 63 + 5, len content, [])) ->
  from_load proto bp call = match proto, bp with LoadFile2, true => Err (2 ^ 63 + 2) | _, _ => Ok content end.
Proof.
  intros proto bp call content C. unfold from_load. rewrite C. cbn [andb]. change (2 ^ 63 + 5 =? BUFFER_TOO_SMALL) with true. cbv iota beta. rewrite C. cbn [andb]. rewrite N.leb_refl. cbn [N.eqb]. rewrite filled_all.
  destruct proto, bp; reflexivity.
Qed.
(** Not so: a driver whose second answer is shorter.  Zeros follow it. *)
Theorem c88_load_short_refuted : forall bp call n content, 0 < n -> call bp false 0 = (2 ^ 63 + 5, len content + n, []) -> call bp true (len content + n) = (0, len content, content) ->
  from_load LoadFile bp call = Ok (content ++ repeat 0 (N.to_nat n)).
Proof.
  intros bp call n content P C1 C2. unfold from_load. cbv iota. rewrite C1. change (2 ^ 63 + 5 =? BUFFER_TOO_SMALL) with true. cbv iota. rewrite C2. cbn [N.eqb]. f_equal. unfold filled, len.
  rewrite firstn_app, firstn_all2 by lia. f_equal. replace (N.to_nat (N.of_nat (length content) + n) - length content)%nat with (N.to_nat n) by lia.
  replace (N.to_nat (N.of_nat (length content) + n)) with (N.to_nat n + length content)%nat by lia. rewrite repeat_app, firstn_app, repeat_length, Nat.sub_diag, firstn_O, app_nil_r.
  apply firstn_all2. rewrite repeat_length. lia.
Qed.
(** C88: what a volume gives is given as it is … *)
Theorem c88_volume : forall live auth p bytes, fst (from_fw live (0, auth, p, bytes)) = Ok bytes /\ forall s, s <> 0 -> from_fw live (s, auth, p, bytes) = (Err s, live).
Proof. intros. split; [reflexivity|]. intros s S. cbn [from_fw]. destruct (s =? 0) eqn:E; [lia | reflexivity]. Qed.
(** … but the block it comes in is never freed. *)
Theorem c88_volume_leak_refuted : forall live auth p bytes, snd (from_fw live (0, auth, p, bytes)) = p :: live.
Proof. reflexivity. Qed.

(** ** Which way *)

(** C88: the ways are tried in the order volume, file system, LoadFile2 (not for a boot option), LoadFile, up to the first that succeeds; that one's content is given,
    marked as from a volume if it is. *)
Theorem c88_first : forall bp ask r tried, get_buffer false bp ask = (r, tried) -> (forall w, ask w <> Panic) ->
  exists rest, order bp = tried ++ rest
  /\ match r with
     | Ok (b, fv, _) => exists before w, tried = before ++ [w] /\ ask w = Ok b /\ (fv = true <-> w = Fw) /\ Forall (fun v => exists e, ask v = Err e) before
     | Err e => e = 2 ^ 63 + 14 /\ rest = [] /\ Forall (fun v => exists e, ask v = Err e) tried
     | Panic => False
     end.
Proof.
  intros bp ask r tried H P. unfold get_buffer in H. unfold order.
  assert (K : forall w x, ask w = Err x -> exists e, ask w = Err e) by (intros w x X; exists x; exact X).
  destruct (ask Fw) as [b|e|] eqn:A1; [| |destruct (P _ A1)].
  - assert (r = Ok (b, true, 0)) by congruence. assert (tried = [Fw]) by congruence. subst. exists (skipn 1 (order bp)). split; [destruct bp; reflexivity|]. exists [], Fw. repeat split; [exact A1 | constructor].
  - destruct (ask Sfs) as [b|e'|] eqn:A2; [| |destruct (P _ A2)].
    + assert (r = Ok (b, false, 0)) by congruence. assert (tried = [Fw; Sfs]) by congruence. subst. exists (skipn 2 (order bp)). split; [destruct bp; reflexivity|]. exists [Fw], Sfs. repeat split; [exact A2 | discriminate | discriminate |].
      repeat constructor. exact (K _ _ A1).
    + destruct bp.
      * destruct (ask Lf) as [b|e''|] eqn:A3; [| |destruct (P _ A3)].
        -- assert (r = Ok (b, false, 0)) by congruence. assert (tried = [Fw; Sfs; Lf]) by congruence. subst. exists []. split; [reflexivity|]. exists [Fw; Sfs], Lf. repeat split; [exact A3 | discriminate | discriminate |].
           repeat constructor; [exact (K _ _ A1) | exact (K _ _ A2)].
        -- assert (r = Err NOT_FOUND) by congruence. assert (tried = [Fw; Sfs; Lf]) by congruence. subst. exists []. split; [reflexivity|]. split; [reflexivity|]. split; [reflexivity|].
           repeat constructor; [exact (K _ _ A1) | exact (K _ _ A2) | exact (K _ _ A3)].
      * destruct (ask Lf2) as [b|e''|] eqn:A3; [| |destruct (P _ A3)].
        -- assert (r = Ok (b, false, 0)) by congruence. assert (tried = [Fw; Sfs; Lf2]) by congruence. subst. eexists. split; [reflexivity|]. exists [Fw; Sfs], Lf2. repeat split; [exact A3 | discriminate | discriminate |].
           repeat constructor; [exact (K _ _ A1) | exact (K _ _ A2)].
        -- destruct (ask Lf) as [b|e3|] eqn:A4; [| |destruct (P _ A4)].
           ++ assert (r = Ok (b, false, 0)) by congruence. assert (tried = [Fw; Sfs; Lf2; Lf]) by congruence. subst. exists []. split; [reflexivity|]. exists [Fw; Sfs; Lf2], Lf. repeat split; [exact A4 | discriminate | discriminate |].
              repeat constructor; [exact (K _ _ A1) | exact (K _ _ A2) | exact (K _ _ A3)].
           ++ assert (r = Err NOT_FOUND) by congruence. assert (tried = [Fw; Sfs; Lf2; Lf]) by congruence. subst. exists []. split; [reflexivity|]. split; [reflexivity|]. split; [reflexivity|].
              repeat constructor; [exact (K _ _ A1) | exact (K _ _ A2) | exact (K _ _ A3) | exact (K _ _ A4)].
Qed.
(** C88: without a path nothing is asked. *)
Theorem c88_null : forall bp ask, get_buffer true bp ask = (Err (2 ^ 63 + 2), []).
Proof. reflexivity. Qed.
(** Not so: the volume's verdict on the authenticity of the file.  It is always given as zero. *)
Theorem c88_authentication_refuted : forall null bp ask b fv auth tried, get_buffer null bp ask = (Ok (b, fv, auth), tried) -> auth = 0.
Proof.
  intros null bp ask b fv auth tried H. unfold get_buffer in H. destruct null; [discriminate|]. destruct (ask Fw); [congruence| |discriminate]. destruct (ask Sfs); [congruence| |discriminate].
  destruct (if bp then Err 0 else ask Lf2); [congruence| |discriminate]. destruct (ask Lf); [congruence|discriminate|discriminate].
Qed.

(** ** Cases *)

Definition demo_info : list N := le_bytes 8 82 ++ le_bytes 8 3 ++ repeat 0 56 ++ le_bytes 8 0x20 ++ [0; 0].
Definition demo_file : file := File (fun b n => if b && (len demo_info <=? n) then (0, len demo_info, demo_info) else (2 ^ 63 + 5, len demo_info, [])) (fun _ => 0)
  (fun n => (0, N.min n 3, firstn (N.to_nat n) [7; 8; 9])).
Example demo_file_ok : file_ok demo_file demo_info [7; 8; 9].
Proof. repeat split. Qed.
Example demo_info_ok : info_says demo_info (len [7; 8; 9]) 0x20.
Proof. split; [vm_compute; discriminate|]. split; [reflexivity|]. split; [reflexivity|]. exists (le_bytes 8 82), (repeat 0 56), 0, [0]. repeat split. Qed.
Example demo_read : file_read demo_file = Ok [7; 8; 9]. Proof. vm_compute. reflexivity. Qed.
(** A volume with one file, boot.efi in EFI. *)
Definition demo_look (d : N) (name : list N) : res N N :=
  match d, name with 0, [0x45; 0x46; 0x49] => Ok 1 | 1, [0x62] => Ok 2 | _, _ => Err NOT_FOUND end.
Example demo_resolve : resolve demo_look [[0x45; 0x46; 0x49]; [0x62]] 0 = Ok 2 /\ Forall name_ok [[0x45; 0x46; 0x49]; [0x62]].
Proof. split; [reflexivity|]. repeat constructor. Qed.
Example demo_sfs : from_sfs (fun _ => demo_file) (driver_open demo_look) (Ok 0) (map name_node [[0x45; 0x46; 0x49]; [0x62]] ++ [end_node]) = (Ok [7; 8; 9], [2; 1; 0]).
Proof. vm_compute. reflexivity. Qed.

Print Assumptions c88_file.
Print Assumptions c88_directory.
Print Assumptions c88_changed.
Print Assumptions c88_panic.
Print Assumptions c88_path.
Print Assumptions c88_sfs.
Print Assumptions c88_other_nodes.
Print Assumptions c88_unterminated_refuted.
Print Assumptions c88_close_refuted.
Print Assumptions c88_load.
Print Assumptions c88_load_short_refuted.
Print Assumptions c88_volume.
Print Assumptions c88_volume_leak_refuted.
Print Assumptions c88_null.
Print Assumptions c88_first.
Print Assumptions c88_authentication_refuted.
