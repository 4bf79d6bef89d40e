(** The theorems about loading and relocating images (C35). *)
From Verif Require Import Base.Prelude Base.Bytes Pe.Model Pe.Spec Pe.Proofs.
From Coq Require Import ZifyNat ZifyN ZifyBool.
Local Open Scope N_scope.

(** ** Loading *)

(** If headers and sections lie within file and buffer, loading succeeds and every byte of the buffer is the byte of
    the last section that covers it, else of the headers, else zero - whatever the buffer held before. *)
Theorem C35_load : forall info image buf, fits info image (blen buf) ->
  exists out, load_image info image buf = Ok out /\ length out = length buf /\ forall i, byte out i = loaded_byte info image i.
Proof. intros info image buf. exact (proj1 (load_image_spec info image buf)). Qed.

(** Otherwise it fails, without a panic. *)
Theorem C35_load_refused : forall info image buf, ~ fits info image (blen buf) -> load_image info image buf = Err PTooShort.
Proof. intros info image buf. exact (proj2 (load_image_spec info image buf)). Qed.

(** ** Relocating *)

Definition adjustment (info : pe_info) (image : list N) (dest : N) : N := (dest + two64 - preferred info image) mod two64.

Lemma wf_image1 info t image d : well_formed info t image -> d < two64 ->
  let image1 := put image (pe_base_at info) (le_bytes 8 d) in
  length image1 = length image /\ bytes_ok image1 /\ value_at image1 (pe_base_at info, 8%nat) = d /\
  (forall p, In p (places (rva_offset info) t) -> value_at image1 p = value_at image p) /\
  (forall i, ~ inside i (pe_base_at info, 8%nat) -> byte image1 i = byte image i).
Proof.
  intros W Hd image1. pose proof (wf_base _ _ _ W) as B.
  assert (B' : pe_base_at info + blen (le_bytes 8 d) <= blen image) by (unfold blen in *; rewrite le_bytes_length; lia).
  split; [apply put_length; exact B'|]. split; [apply put_bytes_ok; [exact (wf_bytes _ _ _ W)|apply le_bytes_ok]|]. split.
  - unfold image1. rewrite value_put by (change (N.of_nat 8) with 8; exact B). apply N.mod_small. exact Hd.
  - split.
    + intros p Hp. apply value_put_apart; [change (N.of_nat 8) with 8; exact B|]. destruct (wf_places _ _ _ W p Hp) as [_ A]. unfold apart in *. tauto.
    + intros i Hi. unfold image1. rewrite put_byte by exact B'. unfold blen. rewrite le_bytes_length.
      destruct ((pe_base_at info <=? i) && (i <? pe_base_at info + N.of_nat 8)) eqn:C; [|reflexivity]. exfalso. apply Hi. unfold inside. cbn [fst snd]. lia.
Qed.

Lemma kept_table info t image image' : well_formed info t image -> length image' = length image ->
  (forall i, ~ inside i (pe_base_at info, 8%nat) -> (forall p, In p (places (rva_offset info) t) -> ~ inside i p) -> byte image' i = byte image i) ->
  forall va size, pe_reloc info = Some (va, size) ->
  firstn (N.to_nat size) (skipn (N.to_nat va) image') = table_bytes t.
Proof.
  intros W L K va size E. destruct (wf_dir _ _ _ W) as (va' & size' & E' & _ & T & A1 & A2). rewrite E in E'. injection E' as <- <-.
  rewrite <- T. apply slice_ext; [exact L|]. intros i Hi.
  assert (X : byte image' (va + N.of_nat i) = byte image (va + N.of_nat i)).
  { apply K.
    - intros Hin. unfold inside, apart in *. cbn [fst snd] in *. lia.
    - intros p Hp Hin. specialize (A2 p Hp). unfold inside, apart in *. cbn [fst snd] in *. lia. }
  unfold byte in X. rewrite N2Nat.inj_add, Nat2N.id in X. exact X.
Qed.

(** The image relocated to [dest]: the distance from the preferred address is added to the number at each place, the
    base field holds the new base, all other bytes are untouched; the record has the new value of every 64-bit
    place. *)
Theorem C35_relocate : forall dbg info t image dest,
  well_formed info t image -> rva_offset info <= dest -> dest < two64 -> preferred info image < two64 ->
  exists image' recs, relocate_image dbg info dest image [] = Ok (image', recs) /\ bytes_ok image' /\
    relocated (pe_base_at info) (places (rva_offset info) t) (adjustment info image dest) (dest - rva_offset info) image image' /\
    recs = (if adjustment info image dest =? 0 then [] else map (recorded_block (rva_offset info) image') t).
Proof.
  intros dbg info t image dest W R D P. set (rva := rva_offset info) in *. unfold relocate_image. fold rva.
  pose proof (wf_base _ _ _ W) as B. unfold pread, pwrite. change (N.of_nat 8) with 8. rewrite (proj2 (N.leb_le _ _) B). cbn [bind].
  unfold usub. rewrite (proj2 (N.leb_le _ _) R). cbn [bind].
  assert (D' : dest - rva < two64) by lia. destruct (wf_image1 info t image (dest - rva) W D') as (L1 & O1 & V1 & P1 & K1).
  change (le_at image (N.to_nat (pe_base_at info)) 8) with (value_at image (pe_base_at info, 8%nat)).
  unfold preferred in P. fold rva in P. unfold uadd. rewrite (proj2 (N.ltb_lt _ _) P). cbn [bind].
  change ((dest + two64 - (value_at image (pe_base_at info, 8%nat) + rva)) mod two64) with (adjustment info image dest).
  set (image1 := put image (pe_base_at info) (le_bytes 8 (dest - rva))) in *. set (adj := adjustment info image dest).
  destruct (wf_dir _ _ _ W) as (va & size & E & S & T & A1 & A2). rewrite E.
  assert (Hb : forall p, In p (places rva t) -> fst p + N.of_nat (snd p) <= blen image1).
  { intros p Hp. unfold blen. rewrite L1. apply (wf_places _ _ _ W p Hp). }
  destruct (adj =? 0) eqn:Z.
  - apply N.eqb_eq in Z. exists image1, []. split; [reflexivity|]. split; [exact O1|]. split; [|reflexivity]. split; [exact L1|]. split; [exact V1|]. split.
    + intros p Hp. rewrite (P1 p Hp), Z, N.add_0_r. symmetry. apply N.mod_small. apply value_bound. exact (wf_bytes _ _ _ W).
    + intros i Hi _. apply K1. exact Hi.
  - rewrite get_some by (unfold blen in *; rewrite L1; exact S).
    rewrite (kept_table info t image image1 W L1 (fun i H _ => K1 i H) va size E).
    unfold parse_relocation_blocks. rewrite parse_blocks_ok; [|exact (wf_table _ _ _ W)|reflexivity|apply le_n]. cbn [bind length Nat.eqb orb].
    rewrite fix_blocks_ok; [|exact (wf_table _ _ _ W)|unfold blen; rewrite L1; exact (wf_len _ _ _ W)|exact (wf_pages _ _ _ W)|exact Hb|exact (wf_apart _ _ _ W)].
    destruct (fold_add adj (places rva t) image1 (wf_apart _ _ _ W) Hb) as (F1 & F2 & F3 & F4 & F5).
    set (image' := fold_left (add_at adj) (places rva t) image1) in *. exists image', (map (recorded_block rva image') t).
    split; [reflexivity|]. split; [apply F2; exact O1|]. split; [|reflexivity]. split; [rewrite F1; exact L1|]. split; [|split].
    + rewrite F5; [exact V1|]. intros p Hp. apply (wf_places _ _ _ W p Hp).
    + intros p Hp. rewrite (F3 p Hp), (P1 p Hp). reflexivity.
    + intros i H1 H2. rewrite F4 by exact H2. apply K1. exact H1.
Qed.

Lemma relocated_wf info t image image' adj nb : well_formed info t image -> bytes_ok image' ->
  relocated (pe_base_at info) (places (rva_offset info) t) adj nb image image' -> well_formed info t image'.
Proof.
  intros W Ob (L & _ & _ & K). destruct W as [w1 w2 w3 w4 w5 w6 w7 w8] eqn:EW. assert (W' : well_formed info t image) by exact W.
  assert (BL : blen image' = blen image) by (unfold blen; rewrite L; reflexivity).
  constructor; try assumption; try (rewrite BL; assumption).
  - destruct w5 as (va & size & E & S & T & A1 & A2). exists va, size. split; [exact E|]. split; [rewrite BL; exact S|]. split; [|split; assumption].
    apply (kept_table info t image image' W' L K va size E).
Qed.

Lemma relocated_unique base ps adj adj' nb image x y :
  (forall p, In p ps -> fst p + N.of_nat (snd p) <= blen image) -> base + 8 <= blen image ->
  bytes_ok x -> bytes_ok y -> relocated base ps adj nb image x -> relocated base ps adj' nb image y ->
  (forall p, In p ps -> (value_at image p + adj) mod 256 ^ N.of_nat (snd p) = (value_at image p + adj') mod 256 ^ N.of_nat (snd p)) -> x = y.
Proof.
  intros Hb Bb Ox Oy (L1 & V1 & P1 & K1) (L2 & V2 & P2 & K2) Ha. apply bytes_ext; [congruence|]. intros i.
  assert (In_dec : forall p, {inside i p} + {~ inside i p}).
  { intros p. unfold inside.
      destruct (fst p <=? i) eqn:E1; destruct (i <? fst p + N.of_nat (snd p)) eqn:E2; try (left; lia); right; lia. }
  destruct (In_dec (base, 8%nat)) as [Hi|Hi].
  - apply (value_bytes x y (base, 8%nat)); auto; [cbn [fst snd]; unfold blen in *; rewrite L1; exact Bb|congruence|congruence].
  - destruct (Exists_dec (inside i) ps In_dec) as [Hx|Hx].
    + apply Exists_exists in Hx. destruct Hx as (p & Hp & Hi'). apply (value_bytes x y p); auto.
      * unfold blen in *. rewrite L1. apply Hb. exact Hp.
      * congruence.
      * rewrite (P1 p Hp), (P2 p Hp). apply Ha. exact Hp.
    + assert (Hn : forall p, In p ps -> ~ inside i p) by (intros p Hp Hi'; apply Hx, Exists_exists; eauto).
      rewrite K1, K2; auto.
Qed.

Lemma widths t rva p : In p (places rva t) -> exists m, two64 = m * 256 ^ N.of_nat (snd p).
Proof.
  intros H. apply in_flat_map in H. destruct H as (pg & _ & H). apply in_flat_map in H. destruct H as (e & _ & H).
  unfold kind_width in H. destruct (fst e =? 3); [destruct H as [<-|[]]; exists (2 ^ 32); reflexivity|].
  destruct (fst e =? 10); [destruct H as [<-|[]]; exists 1; reflexivity|destruct H].
Qed.

Lemma mod_mod_mul a m n : n <> 0 -> m <> 0 -> (a mod (m * n)) mod n = a mod n.
Proof.
  intros Hn Hm. rewrite N.mul_comm, N.mod_mul_r by assumption.
  rewrite N.mul_comm, N.mod_add by exact Hn. apply N.mod_mod. exact Hn.
Qed.

(** Relocating twice is relocating once: only the last destination counts. *)
Theorem C35_relocate_again : forall dbg dbg' info t image d1 d2 image1 recs1,
  well_formed info t image -> rva_offset info <= d1 < two64 -> rva_offset info <= d2 < two64 -> preferred info image < two64 ->
  relocate_image dbg info d1 image [] = Ok (image1, recs1) ->
  exists image2 recs2 recs2', relocate_image dbg' info d2 image1 [] = Ok (image2, recs2) /\
    relocate_image dbg' info d2 image [] = Ok (image2, recs2').
Proof.
  intros dbg dbg' info t image d1 d2 image1 recs1 W [R1 D1] [R2 D2] P E.
  destruct (C35_relocate dbg info t image d1 W R1 D1 P) as (x & rx & Ex & Ox & Rx & _). rewrite E in Ex. injection Ex as <- <-.
  assert (W1 : well_formed info t image1) by (eapply relocated_wf; eauto).
  assert (P1 : preferred info image1 = d1) by (unfold preferred; destruct Rx as (_ & V & _); rewrite V; lia).
  destruct (C35_relocate dbg' info t image1 d2 W1 R2 D2) as (y & ry & Ey & Oy & Ry & _); [rewrite P1; exact D1|].
  destruct (C35_relocate dbg' info t image d2 W R2 D2 P) as (z & rz & Ez & Oz & Rz & _).
  exists y, ry, rz. split; [exact Ey|]. rewrite Ez. f_equal. f_equal.
  set (a1 := adjustment info image d1) in *. set (a2 := adjustment info image1 d2) in *. set (a := adjustment info image d2) in *.
  assert (A : (a1 + a2) mod two64 = a).
  { unfold a1, a2, a, adjustment. rewrite P1. rewrite <- N.add_mod by discriminate.
    replace (d1 + two64 - preferred info image + (d2 + two64 - d1)) with (d2 + two64 - preferred info image + 1 * two64) by lia.
    apply N.mod_add. discriminate. }
  destruct Rx as (Lx & Vx & Px & Kx). destruct Ry as (Ly & Vy & Py & Ky).
  assert (Ry' : relocated (pe_base_at info) (places (rva_offset info) t) (a1 + a2) (d2 - rva_offset info) image y).
  { split; [congruence|]. split; [exact Vy|]. split.
    - intros p Hp. rewrite (Py p Hp), (Px p Hp). rewrite N.add_mod_idemp_l by (apply N.pow_nonzero; discriminate). f_equal. lia.
    - intros i H1 H2. rewrite (Ky i H1 H2). apply Kx; assumption. }
  symmetry. eapply (relocated_unique (pe_base_at info) (places (rva_offset info) t) (a1 + a2) a); eauto.
  - intros p Hp. apply (wf_places _ _ _ W p Hp).
  - exact (wf_base _ _ _ W).
  - intros p Hp. destruct (widths t (rva_offset info) p Hp) as [m Hm]. rewrite <- A.
    assert (Hn : 256 ^ N.of_nat (snd p) <> 0) by (apply N.pow_nonzero; discriminate).
    assert (Hm0 : m <> 0) by (intros ->; discriminate Hm).
    rewrite (N.add_mod _ (a1 + a2)) by exact Hn. rewrite (N.add_mod _ ((a1 + a2) mod two64)) by exact Hn. f_equal. f_equal.
    rewrite Hm, mod_mod_mul by assumption. reflexivity.
Qed.

(** Relocating back restores the image. *)
Theorem C35_relocate_back : forall dbg dbg' info t image d image1 recs1,
  well_formed info t image -> rva_offset info <= d < two64 -> preferred info image < two64 ->
  relocate_image dbg info d image [] = Ok (image1, recs1) ->
  exists recs2, relocate_image dbg' info (preferred info image) image1 [] = Ok (image, recs2).
Proof.
  intros dbg dbg' info t image d image1 recs1 W R P E.
  assert (Rp : rva_offset info <= preferred info image) by (unfold preferred; lia).
  destruct (C35_relocate_again dbg dbg' info t image d (preferred info image) image1 recs1 W R (conj Rp P) P E) as (y & r1 & r2 & E1 & E2).
  destruct (C35_relocate dbg' info t image (preferred info image) W Rp P P) as (z & rz & Ez & Oz & (L & V & Pz & K) & _).
  rewrite E2 in Ez. injection Ez as <- _. exists r1. rewrite E1. f_equal. f_equal.
  assert (Z : adjustment info image (preferred info image) = 0).
  { unfold adjustment. replace (preferred info image + two64 - preferred info image) with two64 by lia. reflexivity. }
  eapply (relocated_unique (pe_base_at info) (places (rva_offset info) t) 0 0); [| |exact Oz|exact (wf_bytes _ _ _ W)| | |reflexivity].
  - intros p Hp. apply (wf_places _ _ _ W p Hp).
  - exact (wf_base _ _ _ W).
  - rewrite Z in Pz. split; [exact L|]. split; [exact V|]. split; [exact Pz|exact K].
  - split; [reflexivity|]. split; [unfold preferred; lia|]. split; [|reflexivity].
    intros p Hp. rewrite N.add_0_r. symmetry. apply N.mod_small. apply value_bound. exact (wf_bytes _ _ _ W).
Qed.

(** ** Arbitrary images and tables *)

(** Reading a relocation table ends and never panics. *)
Theorem C35_table_is_safe : forall data, parse_relocation_blocks data <> Panic /\ parse_relocation_blocks data <> Err PFuel.
Proof. intros data. destruct (parse_blocks_fuel (length data) 0 data (le_n _)). split; assumption. Qed.

Lemma fix_entries_panic dbg adj rva page : forall l image, fix_entries dbg adj rva page None l image = Panic ->
  exists to v, In (to, v) l /\ (~ known (to / 4096) \/ (dbg = true /\ page + to mod 4096 < rva)).
Proof.
  induction l as [|[to v0] t IH]; intros image E; cbn [fix_entries] in E; [discriminate E|].
  unfold usub in E. destruct (rva <=? page + to mod 4096) eqn:Er.
  2:{ destruct dbg; [exists to, v0; split; [left; reflexivity|right; split; [reflexivity|lia]]|]. cbn [bind] in E.
      match type of E with bind ?x _ = _ => destruct x as [[im v]|e|] eqn:X end; cbn [bind] in E; try discriminate E.
      - match type of E with bind ?y _ = _ => destruct y as [[im' l']|e|] eqn:Y end; cbn [bind] in E; try discriminate E.
        destruct (IH _ Y) as (a & b & Hi & H). exists a, b. split; [right; exact Hi|exact H].
      - exists to, v0. split; [left; reflexivity|]. left. unfold known. destruct (to / 4096 =? 0) eqn:K0; [discriminate X|].
        destruct (to / 4096 =? 3) eqn:K3; [unfold pread, pwrite in X; repeat (destruct (_ <=? _) in X; cbn [bind] in X; try discriminate X)|].
        destruct (to / 4096 =? 10) eqn:K10; [unfold pread, pwrite in X; repeat (destruct (_ <=? _) in X; cbn [bind] in X; try discriminate X)|]. lia. }
  cbn [bind] in E. match type of E with bind ?x _ = _ => destruct x as [[im v]|e|] eqn:X end; cbn [bind] in E; try discriminate E.
  - match type of E with bind ?y _ = _ => destruct y as [[im' l']|e|] eqn:Y end; cbn [bind] in E; try discriminate E.
    destruct (IH _ Y) as (a & b & Hi & H). exists a, b. split; [right; exact Hi|exact H].
  - exists to, v0. split; [left; reflexivity|]. left. unfold known. destruct (to / 4096 =? 0) eqn:K0; [discriminate X|].
    destruct (to / 4096 =? 3) eqn:K3; [unfold pread, pwrite in X; repeat (destruct (_ <=? _) in X; cbn [bind] in X; try discriminate X)|].
    destruct (to / 4096 =? 10) eqn:K10; [unfold pread, pwrite in X; repeat (destruct (_ <=? _) in X; cbn [bind] in X; try discriminate X)|]. lia.
Qed.

Lemma fix_blocks_panic dbg adj rva : forall l image, fix_blocks dbg adj rva None l image = Panic ->
  exists b to v, In b l /\ In (to, v) (rb_relocs b) /\ (~ known (to / 4096) \/ (dbg = true /\ rb_page b + to mod 4096 < rva)).
Proof.
  induction l as [|b t IH]; intros image E; cbn [fix_blocks] in E; [discriminate E|].
  destruct (fix_entries dbg adj rva (rb_page b) None (rb_relocs b) image) as [[im rs]|e|] eqn:X; cbn [bind] in E; try discriminate E.
  - destruct (fix_blocks dbg adj rva None t im) as [[im' l']|e|] eqn:Y; cbn [bind] in E; try discriminate E.
    destruct (IH _ Y) as (b' & to & v & H1 & H2). exists b', to, v. split; [right; exact H1|exact H2].
  - apply fix_entries_panic in X. destruct X as (to & v & H1 & H2). exists b, to, v. split; [left; reflexivity|]. split; assumption.
Qed.

(** On any image and table the relocation panics only at an entry of another kind than 0, 3 and 10 - and in a debug
    build when an address computation under- or overflows; it never touches bytes outside the image (every other bad
    address is an error). *)
Theorem C35_relocate_panics_only : forall dbg info dest image, relocate_image dbg info dest image [] = Panic ->
  (exists va size new_base data bs b to v, pe_reloc info = Some (va, size) /\
     get (put image (pe_base_at info) (le_bytes 8 new_base)) va size = Some data /\ parse_relocation_blocks data = Ok bs /\ In b bs /\
     In (to, v) (rb_relocs b) /\ (~ known (to / 4096) \/ (dbg = true /\ rb_page b + to mod 4096 < rva_offset info))) \/
  (dbg = true /\ (dest < rva_offset info \/ two64 <= preferred info image)).
Proof.
  intros dbg info dest image E. unfold relocate_image in E. unfold pread at 1 in E.
  destruct (pe_base_at info + N.of_nat 8 <=? blen image) eqn:B; cbn [bind] in E; [|discriminate E].
  unfold usub in E. destruct (rva_offset info <=? dest) eqn:R.
  2:{ destruct dbg; [right; split; [reflexivity|left; lia]|]. cbn [bind] in E. unfold pwrite in E. rewrite B in E. cbn [bind] in E.
      unfold uadd in E. destruct (le_at image (N.to_nat (pe_base_at info)) 8 + rva_offset info <? two64); cbn [bind] in E;
      (destruct (pe_reloc info) as [[va size]|] eqn:D; [|discriminate E]);
      (match type of E with (if ?c then _ else _) = _ => destruct c end; [discriminate E|]);
      (match type of E with match ?c with _ => _ end = _ => destruct c as [data|] eqn:G end; [|discriminate E]);
      (destruct (parse_relocation_blocks data) as [bs|e|] eqn:Pb; cbn [bind] in E; [|discriminate E|destruct (C35_table_is_safe data); congruence]);
      cbn [length Nat.eqb orb] in E; apply fix_blocks_panic in E; destruct E as (b & to & v & H1 & H2 & H3);
      left; eexists va, size, _, data, bs, b, to, v; repeat (split; [first [reflexivity|exact G|assumption]|]); assumption. }
  cbn [bind] in E. unfold pwrite in E. rewrite B in E. cbn [bind] in E. unfold uadd in E.
  destruct (le_at image (N.to_nat (pe_base_at info)) 8 + rva_offset info <? two64) eqn:U.
  2:{ destruct dbg; [right; split; [reflexivity|right; unfold preferred, value_at; cbn [fst snd]; lia]|]. cbn [bind] in E.
      (destruct (pe_reloc info) as [[va size]|] eqn:D; [|discriminate E]);
      (match type of E with (if ?c then _ else _) = _ => destruct c end; [discriminate E|]);
      (match type of E with match ?c with _ => _ end = _ => destruct c as [data|] eqn:G end; [|discriminate E]);
      (destruct (parse_relocation_blocks data) as [bs|e|] eqn:Pb; cbn [bind] in E; [|discriminate E|destruct (C35_table_is_safe data); congruence]);
      cbn [length Nat.eqb orb] in E; apply fix_blocks_panic in E; destruct E as (b & to & v & H1 & H2 & H3);
      left; eexists va, size, _, data, bs, b, to, v; repeat (split; [first [reflexivity|exact G|assumption]|]); assumption. }
  cbn [bind] in E.
  (destruct (pe_reloc info) as [[va size]|] eqn:D; [|discriminate E]);
  (match type of E with (if ?c then _ else _) = _ => destruct c end; [discriminate E|]);
  (match type of E with match ?c with _ => _ end = _ => destruct c as [data|] eqn:G end; [|discriminate E]);
  (destruct (parse_relocation_blocks data) as [bs|e|] eqn:Pb; cbn [bind] in E; [|discriminate E|destruct (C35_table_is_safe data); congruence]);
  cbn [length Nat.eqb orb] in E; apply fix_blocks_panic in E; destruct E as (b & to & v & H1 & H2 & H3);
  left; eexists va, size, _, data, bs, b, to, v; repeat (split; [first [reflexivity|exact G|assumption]|]); assumption.
Qed.

(** ** The record for the runtime *)

(** One entry per place, in table order: 8 bytes with the value the 64-bit place holds now, 4 zero bytes for a 32-bit
    place. *)
Definition record_bytes (rva : N) (image : list N) (t : table) : list N :=
  flat_map (fun p => flat_map (fun e => if fst e =? 3 then [0; 0; 0; 0]
    else if fst e =? 10 then le_bytes 8 (value_at image (fst p + snd e - rva, 8%nat)) else []) (snd p)) t.

Theorem C35_record : forall rva image t, table_ok t ->
  flatten (map (recorded_block rva image) t) = Ok (record_bytes rva image t).
Proof.
  intros rva image. induction t as [|[p l] t IH]; intros T; cbn [map flatten]; [reflexivity|].
  destruct (T p l) as (_ & _ & _ & K); [left; reflexivity|].
  assert (H : flatten_entries (rb_relocs (recorded_block rva image (p, l))) =
              Ok (flat_map (fun e => if fst e =? 3 then [0; 0; 0; 0] else if fst e =? 10 then le_bytes 8 (value_at image (p + snd e - rva, 8%nat)) else []) l)).
  { unfold recorded_block. cbn [rb_relocs fst snd]. clear IH T. induction l as [|[k o] l IH]; [reflexivity|]. cbn [map flatten_entries flat_map].
    destruct (K k o) as [Kk Ko]; [left; reflexivity|]. unfold recorded at 1. cbn [fst snd]. destruct (entry_split k o Ko) as [E1 _]. rewrite E1.
    rewrite IH by (intros; apply K; right; assumption). destruct Kk as [->|[->| ->]]; reflexivity. }
  rewrite H. cbn [bind]. rewrite IH by (intros p' l' Hi; apply T; right; exact Hi). reflexivity.
Qed.

(** ** The record given back *)

Lemma fix_entries_prev dbg adj rva page : forall l image prev image' l', (length l <= length prev)%nat ->
  fix_entries dbg adj rva page None l image = Ok (image', l') ->
  exists l'', fix_entries dbg adj rva page (Some prev) l image = Ok (image', l'').
Proof.
  induction l as [|[to v0] t IH]; intros image prev image' l' L E; cbn [fix_entries] in *; [injection E as <- <-; exists []; reflexivity|].
  destruct prev as [|q prev]; [cbn in L; lia|]. cbn [length] in L.
  destruct (usub dbg (page + to mod 4096) rva) as [fx| |]; cbn [bind] in *; try discriminate E.
  destruct (to / 4096 =? 0).
  { cbn [bind] in *. destruct (fix_entries dbg adj rva page None t image) as [[im lr]| |] eqn:F; cbn [bind] in E; try discriminate E. injection E as <- <-.
    destruct (IH _ prev _ _ ltac:(lia) F) as [l'' G]. rewrite G. cbn [bind]. eauto. }
  destruct (to / 4096 =? 3).
  { destruct (pread image fx 4) as [v| |]; cbn [bind] in *; try discriminate E. destruct (pwrite image _ fx 4) as [im1| |]; cbn [bind] in *; try discriminate E.
    destruct (fix_entries dbg adj rva page None t im1) as [[im lr]| |] eqn:F; cbn [bind] in E; try discriminate E. injection E as <- <-.
    destruct (IH _ prev _ _ ltac:(lia) F) as [l'' G]. rewrite G. cbn [bind]. eauto. }
  destruct (to / 4096 =? 10); [|discriminate E].
  unfold pread, pwrite in *. change (N.of_nat 8) with 8 in *. destruct (fx + 8 <=? blen image) eqn:B; cbn [bind] in *; [|discriminate E].
  set (v := le_at image (N.to_nat fx) 8) in *. set (im1 := put image fx (le_bytes 8 ((v + adj) mod two64))) in *.
  assert (L1 : fx + 8 <=? blen im1 = true).
  { unfold blen in *. unfold im1. rewrite put_length; [exact B|]. unfold blen. rewrite le_bytes_length. lia. }
  rewrite L1 in *. cbn [bind] in *.
  assert (PP : put im1 fx (le_bytes 8 ((v + adj) mod two64)) = im1).
  { unfold im1. apply put_put; [reflexivity|]. unfold blen in *. rewrite le_bytes_length. lia. }
  rewrite PP in *. destruct (fix_entries dbg adj rva page None t im1) as [[im lr]| |] eqn:F; cbn [bind] in E; try discriminate E. injection E as <- <-.
  destruct (IH _ prev _ _ ltac:(lia) F) as [l'' G]. destruct (q =? v); cbn [bind]; rewrite G; cbn [bind]; eauto.
Qed.

Lemma fix_blocks_prev dbg adj rva : forall l image prev image' l',
  Forall2 (fun b q => (length (rb_relocs b) <= length (rb_relocs q))%nat) l prev ->
  fix_blocks dbg adj rva None l image = Ok (image', l') ->
  exists l'', fix_blocks dbg adj rva (Some prev) l image = Ok (image', l'').
Proof.
  induction l as [|b t IH]; intros image prev image' l' L E; cbn [fix_blocks] in *; [injection E as <- <-; exists []; reflexivity|].
  inversion L as [|? q ? prev' Lb Lt]; subst.
  destruct (fix_entries dbg adj rva (rb_page b) None (rb_relocs b) image) as [[im rs]|e|] eqn:X; cbn [bind] in E; try discriminate E.
  destruct (fix_entries_prev dbg adj rva (rb_page b) (rb_relocs b) image (map snd (rb_relocs q)) im rs) as [r2 X2]; [rewrite map_length; exact Lb|exact X|].
  rewrite X2. cbn [bind]. destruct (fix_blocks dbg adj rva None t im) as [[im' lr]|e|] eqn:Y; cbn [bind] in E; try discriminate E. injection E as <- <-.
  destruct (IH _ prev' _ _ Lt Y) as [r3 Y3]. rewrite Y3. cbn [bind]. eauto.
Qed.

(** Giving a record of the right shape changes nothing about the image. *)
Theorem C35_record_makes_no_difference : forall dbg info dest image image' recs prev,
  relocate_image dbg info dest image [] = Ok (image', recs) ->
  Forall2 (fun b q => (length (rb_relocs b) <= length (rb_relocs q))%nat) recs prev -> recs <> [] ->
  exists recs', relocate_image dbg info dest image prev = Ok (image', recs').
Proof.
  intros dbg info dest image image' recs prev E S Ne. unfold relocate_image in *.
  destruct (pread image (pe_base_at info) 8) as [base| |]; cbn [bind] in *; try discriminate E.
  destruct (usub dbg dest (rva_offset info)) as [d| |]; cbn [bind] in *; try discriminate E.
  destruct (pwrite image d (pe_base_at info) 8) as [im1| |]; cbn [bind] in *; try discriminate E.
  destruct (uadd dbg base (rva_offset info)) as [s| |]; cbn [bind] in *; try discriminate E.
  destruct (pe_reloc info) as [[va size]|]; [|injection E as <- <-; congruence].
  destruct (_ =? 0); [injection E as <- <-; congruence|].
  destruct (get im1 va size) as [data|]; [|discriminate E].
  destruct (parse_relocation_blocks data) as [bs| |]; cbn [bind length Nat.eqb orb] in *; try discriminate E.
  assert (Sh : forall l im im' l', fix_blocks dbg ((dest + two64 - s) mod two64) (rva_offset info) None l im = Ok (im', l') ->
               Forall2 (fun b q => length (rb_relocs b) = length (rb_relocs q)) l l').
  { induction l as [|b t IH]; intros im im' l' F; cbn [fix_blocks] in F; [injection F as <- <-; constructor|].
    destruct (fix_entries dbg _ _ (rb_page b) None (rb_relocs b) im) as [[i2 rs]|e|] eqn:X; cbn [bind] in F; try discriminate F.
    destruct (fix_blocks dbg _ _ None t i2) as [[i3 lr]|e|] eqn:Y; cbn [bind] in F; try discriminate F. injection F as <- <-.
    constructor; [cbn [rb_relocs]|eapply IH; exact Y].
    assert (Se : forall l im im' l', fix_entries dbg ((dest + two64 - s) mod two64) (rva_offset info) (rb_page b) None l im = Ok (im', l') -> length l = length l').
    { clear. induction l as [|[to v0] t IH]; intros im im' l' F; cbn [fix_entries] in F; [injection F as <- <-; reflexivity|].
      destruct (usub _ _ _) as [fx| |]; cbn [bind] in F; try discriminate F.
      match type of F with bind ?x _ = _ => destruct x as [[i2 v]|e|] eqn:X end; cbn [bind] in F; try discriminate F.
      match type of F with bind ?x _ = _ => destruct x as [[i3 v3]|e|] eqn:Y end; cbn [bind] in F; try discriminate F.
      injection F as <- <-. cbn [length]. f_equal. eapply IH. exact Y. }
    eapply Se. exact X. }
  pose proof (Sh _ _ _ _ E) as Hs. assert (S' : Forall2 (fun b q => (length (rb_relocs b) <= length (rb_relocs q))%nat) bs prev).
  { clear - Hs S. revert prev S. induction Hs as [|b q bs recs Hb Hs IH]; intros prev S; inversion S; subst; constructor; auto. lia. }
  assert (Ll : length bs = length prev) by (clear - S'; induction S'; cbn [length]; congruence).
  rewrite (proj2 (Nat.eqb_eq _ _) Ll), orb_true_r. destruct prev as [|q prev]; [inversion S; subst; congruence|].
  eapply fix_blocks_prev; eauto.
Qed.

(** ** The HII resource *)

Lemma named_loop_safe b size : forall n e, named_loop false b size n e <> Panic.
Proof.
  assert (U : forall x, exists y, u16op false x = Ok y) by (intros x; unfold u16op; destruct (x <? two16); eauto).
  assert (D : forall e, descend false b size e <> Panic).
  { intros e. unfold descend. destruct (top_bit (snd e)); [|discriminate]. destruct (size <? low31 (snd e)); [discriminate|].
    unfold read_dir, read_entry, dir_size. destruct (_ <=? _); [|discriminate]. cbn [bind fst snd].
    match goal with |- context [u16op false ?x] => destruct (U x) as [y Ey]; rewrite Ey end. cbn [bind].
    destruct (size <? _); [discriminate|]. destruct (_ <=? _); discriminate. }
  induction n as [|k IH]; intros e; cbn [named_loop]; [discriminate|]. destruct (top_bit (fst e)); [|apply IH].
  destruct (size <=? low31 (fst e)); [discriminate|]. destruct (blen b <? low31 (fst e) + 2); [discriminate|].
  match goal with |- context [u16op false ?x] => destruct (U x) as [y Ey]; rewrite Ey end. cbn [bind].
  destruct (get b _ y) as [s|]; [|discriminate]. destruct (_ && _); [|apply IH].
  specialize (D e) as D1. destruct (descend false b size e) as [e1| |]; cbn [bind]; try congruence.
  assert (D2 : (if top_bit (snd e) then descend false b size e1 else Ok e1) <> Panic) by (destruct (top_bit (snd e)); [apply D|discriminate]).
  destruct (if top_bit (snd e) then descend false b size e1 else Ok e1) as [e2| |]; cbn [bind]; try congruence.
  destruct (top_bit (snd e2)); [apply IH|]. destruct (size <=? snd e2); [discriminate|]. destruct (blen b <? snd e2 + 16); discriminate.
Qed.

(** Looking for the HII resource in a release build never panics, whatever the bytes. *)
Theorem C35_resource_is_safe : forall image l, load_resource false image l <> Panic.
Proof.
  intros image. induction l as [|s t IH]; cbn [load_resource]; [discriminate|]. destruct (list_eqb _ _); [|exact IH].
  destruct (two32 <=? _); [discriminate|]. destruct (get image _ _) as [b|]; [|discriminate].
  unfold read_dir. destruct (0 + 16 <=? blen b); cbn [bind]; [|discriminate].
  unfold dir_size, u16op. cbn [fst snd]. destruct (_ <? two16); cbn [bind];
  (match goal with |- context [if ?c then _ else _] => destruct c end; [discriminate|]; unfold read_entry;
   match goal with |- context [if ?c then _ else _] => destruct c end; cbn [bind]; [|discriminate];
   match goal with |- context [named_loop false b ?sz ?n ?e] => pose proof (named_loop_safe b sz n e) as N; destruct (named_loop false b sz n e) as [[r|]| |] end;
   cbn [bind]; congruence).
Qed.

(** A resource directory whose first entry is named L"HII" and leads through two directories to a data entry. *)
Record hii_first (b : list N) (named ids name_at dir1 dir2 leaf : N) : Prop := MkHii {
  hf_named : le_at b 12 2 = named; hf_ids : le_at b 14 2 = ids; hf_some : 0 < named; hf_sum : named + ids < two16;
  hf_len : 16 + (named + ids) * 8 <= blen b;
  hf_name : le_at b 16 4 = 0x80000000 + name_at /\ name_at < 0x80000000 /\ name_at + 8 <= blen b;
  hf_string : firstn 8 (skipn (N.to_nat name_at) b) = [3; 0; 0x48; 0; 0x49; 0; 0x49; 0];
  hf_dir1 : le_at b 20 4 = 0x80000000 + dir1 /\ dir1 < 0x80000000 /\
    dir1 + 16 + (le_at b (N.to_nat dir1 + 12) 2 + le_at b (N.to_nat dir1 + 14) 2) * 8 <= blen b /\
    le_at b (N.to_nat dir1 + 12) 2 + le_at b (N.to_nat dir1 + 14) 2 < two16 /\ dir1 + 24 <= blen b;
  hf_dir2 : le_at b (N.to_nat (dir1 + 16) + 4) 4 = 0x80000000 + dir2 /\ dir2 < 0x80000000 /\
    dir2 + 16 + (le_at b (N.to_nat dir2 + 12) 2 + le_at b (N.to_nat dir2 + 14) 2) * 8 <= blen b /\
    le_at b (N.to_nat dir2 + 12) 2 + le_at b (N.to_nat dir2 + 14) 2 < two16 /\ dir2 + 24 <= blen b;
  hf_leaf : le_at b (N.to_nat (dir2 + 16) + 4) 4 = leaf /\ leaf < 0x80000000 /\ leaf + 16 <= blen b }.

(** It is found: the offset and size its data entry gives. *)
Theorem C35_resource_found : forall dbg image before s after b named ids name_at dir1 dir2 leaf,
  (forall x, In x before -> trim_nul (sc_name x) <> RSRC) -> trim_nul (sc_name s) = RSRC ->
  get image (sc_rawptr s) (copied s) = Some b -> sc_rawptr s + copied s < two32 -> blen b = copied s ->
  hii_first b named ids name_at dir1 dir2 leaf ->
  load_resource dbg image (before ++ s :: after) = Ok (Some (le_at b (N.to_nat leaf) 4, le_at b (N.to_nat leaf + 4) 4)).
Proof.
  intros dbg image before s after b named ids name_at dir1 dir2 leaf Hb Hs Hg H32 Lb H. destruct H as [H1 H2 H3 H4 H5 [H6 [H7 H8]] H9 (Ha & Hb1 & Hc & Hd & He) (Hf & Hg1 & Hh & Hi & Hj) (Hk & Hl & Hm)].
  induction before as [|x t IH]; cbn [app load_resource].
  2:{ unfold list_eqb. destruct (list_eq_dec N.eq_dec (trim_nul (sc_name x)) RSRC) as [X|X]; [exfalso; apply (Hb x (or_introl eq_refl) X)|].
      apply IH. intros y Hy. apply Hb. right. exact Hy. }
  unfold list_eqb at 1. rewrite Hs. destruct (list_eq_dec N.eq_dec RSRC RSRC) as [_|X]; [|congruence]. rewrite copied_size.
  rewrite (proj2 (N.leb_gt _ _) H32), Hg. unfold read_dir at 1. change (N.to_nat 0 + 12)%nat with 12%nat. change (N.to_nat 0 + 14)%nat with 14%nat.
  rewrite (proj2 (N.leb_le (0 + 16) (blen b))) by lia. cbn [bind fst snd]. rewrite H1, H2. unfold dir_size at 1, u16op at 1.
  rewrite (proj2 (N.ltb_lt _ _) H4). cbn [bind]. rewrite <- Lb.
  rewrite (proj2 (N.ltb_ge (blen b) (16 + (named + ids) * 8)) H5). unfold read_entry at 1. rewrite (proj2 (N.leb_le (16 + 8) (blen b))) by lia. cbn [bind].
  change (N.to_nat 16) with 16%nat. change (16 + 4)%nat with 20%nat. rewrite H6, Ha.
  destruct (N.to_nat named) as [|k] eqn:Nk; [lia|]. cbn [named_loop fst snd].
  assert (T : forall x, top_bit (0x80000000 + x) = true) by (intros x; unfold top_bit; lia).
  assert (Lw : forall x, x < 0x80000000 -> low31 (0x80000000 + x) = x).
  { intros x Hx. unfold low31. rewrite <- (N.mul_1_l 0x80000000) at 1. rewrite N.add_comm, N.mod_add by discriminate. apply N.mod_small. exact Hx. }
  rewrite T, (Lw name_at H7). rewrite (proj2 (N.leb_gt _ _)) by lia. rewrite (proj2 (N.ltb_ge (blen b) (name_at + 2))) by lia.
  assert (E3 : le_at b (N.to_nat name_at) 2 = 3).
  { unfold le_at. assert (X : firstn 2 (skipn (N.to_nat name_at) b) = firstn 2 (firstn 8 (skipn (N.to_nat name_at) b))) by (rewrite firstn_firstn; reflexivity).
    rewrite X, H9. reflexivity. }
  rewrite E3. unfold u16op. change (3 * 2 <? two16) with true. cbn iota. cbn [bind]. change (3 * 2) with 6.
  rewrite get_some by lia.
  assert (E6 : firstn (N.to_nat 6) (skipn (N.to_nat (name_at + 1)) b) = HII).
  { replace (N.to_nat (name_at + 1)) with (1 + N.to_nat name_at)%nat by lia.
    assert (SK : forall (m n : nat) (l : list N), skipn (m + n) l = skipn m (skipn n l)).
    { intros m n l. revert n l. intros n. induction n as [|n IHn]; intros [|y l]; cbn [skipn].
      - now rewrite !skipn_nil.
      - now rewrite Nat.add_0_r.
      - now rewrite !skipn_nil.
      - rewrite Nat.add_succ_r. cbn [skipn]. apply IHn. }
    rewrite SK. change (N.to_nat 6) with 6%nat.
    assert (X : firstn 6 (skipn 1 (skipn (N.to_nat name_at) b)) = skipn 1 (firstn 7 (firstn 8 (skipn (N.to_nat name_at) b)))).
    { rewrite firstn_firstn. change (Nat.min 7 8) with 7%nat. destruct (skipn (N.to_nat name_at) b) as [|y l]; [reflexivity|]. reflexivity. }
    rewrite X, H9. reflexivity. }
  rewrite E6. change (3 =? 3) with true. unfold list_eqb. destruct (list_eq_dec N.eq_dec HII HII) as [_|X]; [|congruence]. cbn [andb].
  unfold descend at 1. cbn [snd]. rewrite T, (Lw dir1 Hb1). rewrite (proj2 (N.ltb_ge (blen b) dir1)) by lia.
  unfold read_dir at 1. rewrite (proj2 (N.leb_le (dir1 + 16) (blen b))) by lia. cbn [bind fst snd]. unfold dir_size at 1, u16op at 1.
  rewrite (proj2 (N.ltb_lt _ _) Hd). cbn [bind].
  rewrite (proj2 (N.ltb_ge (blen b) (dir1 + (16 + (le_at b (N.to_nat dir1 + 12) 2 + le_at b (N.to_nat dir1 + 14) 2) * 8)))) by lia.
  unfold read_entry at 1. rewrite (proj2 (N.leb_le (dir1 + 16 + 8) (blen b))) by lia. cbn [bind snd]. rewrite Hf.
  unfold descend at 1. cbn [snd]. rewrite T, (Lw dir2 Hg1). rewrite (proj2 (N.ltb_ge (blen b) dir2)) by lia.
  unfold read_dir at 1. rewrite (proj2 (N.leb_le (dir2 + 16) (blen b))) by lia. cbn [bind fst snd]. unfold dir_size at 1, u16op at 1.
  rewrite (proj2 (N.ltb_lt _ _) Hi). cbn [bind].
  rewrite (proj2 (N.ltb_ge (blen b) (dir2 + (16 + (le_at b (N.to_nat dir2 + 12) 2 + le_at b (N.to_nat dir2 + 14) 2) * 8)))) by lia.
  unfold read_entry at 1. rewrite (proj2 (N.leb_le (dir2 + 16 + 8) (blen b))) by lia. cbn [bind snd]. rewrite Hk.
  assert (Tl : top_bit leaf = false) by (unfold top_bit; lia). rewrite Tl.
  rewrite (proj2 (N.leb_gt _ _)) by lia. rewrite (proj2 (N.ltb_ge (blen b) (leaf + 16))) by lia. reflexivity.
Qed.

(** ** File names *)
Definition slash (c : N) : Prop := c = 0x2f \/ c = 0x5c.

Lemma until_nul_app l r : (forall c, In c l -> c <> 0) -> until_nul (l ++ 0 :: r) = l.
Proof.
  induction l as [|c t IH]; intros H; cbn [app until_nul]; [reflexivity|]. destruct (c =? 0) eqn:E.
  - exfalso. apply (H c (or_introl eq_refl)). lia.
  - f_equal. apply IH. intros x Hx. apply H. right. exact Hx.
Qed.

Lemma after_slash_app dir c name : slash c -> (forall x, In x name -> ~ slash x) -> after_slash (dir ++ c :: name) = name.
Proof.
  intros Hc Hn. assert (E : existsb (fun x => (x =? 0x2f) || (x =? 0x5c)) name = false).
  { destruct (existsb _ name) eqn:X; [|reflexivity]. apply existsb_exists in X. destruct X as (x & Hx & X). exfalso. apply (Hn x Hx). unfold slash. lia. }
  induction dir as [|d t IH]; cbn [app after_slash].
  - rewrite E. unfold slash in Hc. assert (X : (c =? 0x2f) || (c =? 0x5c) = true) by lia. rewrite X. reflexivity.
  - assert (X : existsb (fun x => (x =? 0x2f) || (x =? 0x5c)) (t ++ c :: name) = true).
    { apply existsb_exists. exists c. split; [apply in_app_iff; right; left; reflexivity|]. unfold slash in Hc. lia. }
    rewrite X. exact IH.
Qed.

(** The file name in the debug data [dir/name.pdb] or [dir/name.dll] names the image [name.efi]. *)
Theorem C35_filename : forall dir c name ext rest, slash c ->
  ext = [0x2e; 0x70; 0x64; 0x62] \/ ext = [0x2e; 0x64; 0x6c; 0x6c] ->
  (forall x, In x (dir ++ name) -> x <> 0) -> (forall x, In x name -> ~ slash x) ->
  read_filename (dir ++ c :: name ++ ext ++ 0 :: rest) = name ++ [0x2e; 0x65; 0x66; 0x69].
Proof.
  intros dir c name ext rest Hc Hext H0 Hn. unfold read_filename.
  replace (dir ++ c :: name ++ ext ++ 0 :: rest) with ((dir ++ c :: name ++ ext) ++ 0 :: rest) by (rewrite <- app_assoc; cbn [app]; rewrite <- app_assoc; reflexivity).
  rewrite until_nul_app.
  2:{ intros x Hx. rewrite !in_app_iff in Hx. cbn [In] in Hx. rewrite in_app_iff in Hx. destruct Hx as [Hx|[<-|[Hx|Hx]]].
      - apply H0, in_app_iff. left. exact Hx.
      - destruct Hc as [->| ->]; discriminate.
      - apply H0, in_app_iff. right. exact Hx.
      - destruct Hext as [-> | ->]; cbn in Hx; intuition (subst; discriminate). }
  assert (Le : length ext = 4%nat) by (destruct Hext as [-> | ->]; reflexivity). set (f := dir ++ c :: name ++ ext). assert (Ef : f = (dir ++ c :: name) ++ ext) by (unfold f; rewrite <- app_assoc; reflexivity).
  assert (E : ends_with f ext = true).
  { unfold ends_with. rewrite Ef, app_length, Le. rewrite (proj2 (Nat.leb_le _ _)) by lia. cbn [andb].
    replace (length (dir ++ c :: name) + 4 - 4)%nat with (length (dir ++ c :: name)) by lia. rewrite skipn_app_exact. unfold list_eqb. destruct (list_eq_dec N.eq_dec ext ext); congruence. }
  assert (E' : ends_with f PDB || ends_with f DLL = true) by (destruct Hext as [-> | ->]; [exact (f_equal (fun b => b || _) E)|unfold DLL; rewrite E; apply orb_true_r]).
  rewrite E'.
  assert (F : firstn (length f - 4) f = dir ++ c :: name).
  { rewrite Ef, app_length. rewrite Le. replace (length (dir ++ c :: name) + 4 - 4)%nat with (length (dir ++ c :: name)) by lia. apply firstn_app_exact. }
  rewrite F, after_slash_app by assumption. reflexivity.
Qed.

(** ** Concrete cases and refutations *)

(** 64 bytes: base 0x1000, a 64-bit address at 16, a 32-bit address at 24, the table at 32. *)
Definition demo_table : table := [(0, [(10, 16); (3, 24)])].
Definition demo : list N :=
  le_bytes 8 0x1000 ++ repeat 0 8 ++ le_bytes 8 0x1010 ++ le_bytes 4 0x1020 ++ repeat 0 4 ++ table_bytes demo_table ++ repeat 0 20.
Definition demo_info : pe_info := Pe None 0 0 11 64 4096 8 [] (Some (32, 12)) true.

Example C35_demo_wf : well_formed demo_info demo_table demo /\ preferred demo_info demo = 0x1000 /\ blen demo = 64.
Proof.
  split; [|split; reflexivity].
  assert (P : places (rva_offset demo_info) demo_table = [(16, 8%nat); (24, 4%nat)]) by reflexivity.
  constructor; rewrite ?P.
  - unfold bytes_ok, demo. repeat constructor.
  - reflexivity.
  - vm_compute. discriminate.
  - intros p l [E|[]]. injection E as <- <-. split; [reflexivity|]. split; [reflexivity|]. split; [reflexivity|]. intros k o Hi.
    destruct Hi as [E|[E|[]]]; injection E as <- <-; (split; [unfold known; tauto|reflexivity]).
  - exists 32, 12. split; [reflexivity|]. split; [vm_compute; discriminate|]. split; [reflexivity|]. split; [unfold apart; cbn; lia|].
    intros p [<-|[<-|[]]]; unfold apart; cbn; lia.
  - intros p l k o [E|[]] Hi. cbn. lia.
  - intros p [<-|[<-|[]]]; (split; [vm_compute; discriminate|unfold apart; cbn; lia]).
  - repeat constructor; unfold apart; cbn; lia.
Qed.

Example C35_demo_relocated : exists image' recs, relocate_image true demo_info 0x5000 demo [] = Ok (image', recs) /\
  value_at image' (0, 8%nat) = 0x5000 /\ value_at image' (16, 8%nat) = 0x5010 /\ value_at image' (24, 4%nat) = 0x5020 /\
  relocate_image true demo_info 0x1000 image' [] = Ok (demo, [Block 0 12 [(0xa010, 0x1010); (0x3018, 0)]]).
Proof. eexists. eexists. split; [vm_compute; reflexivity|]. repeat split; vm_compute; reflexivity. Qed.

Example C35_demo_load : let info := Pe None 0 0 11 64 4096 4 [Sec RSRC 6 8 4 2 0; Sec [1] 0 10 3 0 0] None true in
  fits info [1; 2; 3; 4; 5; 6; 7] 16 /\
  load_image info [1; 2; 3; 4; 5; 6; 7] (repeat 9 16) = Ok [1; 2; 3; 4; 0; 0; 0; 0; 3; 4; 1; 2; 3; 0; 0; 0].
Proof.
  split; [|vm_compute; reflexivity]. split; [vm_compute; discriminate|]. split; [vm_compute; discriminate|].
  intros s [<-|[<-|[]]]; split; vm_compute; discriminate.
Qed.

(** An entry of any other kind panics. *)
Theorem C35_unknown_kind_refuted : exists info image dest, relocate_image false info dest image [] = Panic.
Proof. exists (Pe None 0 0 11 64 4096 8 [] (Some (8, 12)) true), (le_bytes 8 0 ++ le_bytes 4 0 ++ le_bytes 4 12 ++ [0; 0x50; 0; 0]), 4096. vm_compute. reflexivity. Qed.

(** The record is for leaving values alone that were changed since; they are adjusted all the same. *)
Theorem C35_changed_value_refuted : exists info t image dest image' prev recs,
  well_formed info t image /\ relocate_image true info dest image prev = Ok (image', recs) /\
  map (fun b => map snd (rb_relocs b)) prev = [[0x9999; 0]] /\ value_at image (16, 8%nat) = 0x1010 /\
  value_at image' (16, 8%nat) = 0x5010.
Proof.
  exists demo_info, demo_table, demo, 0x5000. eexists. exists [Block 0 12 [(0xa010, 0x9999); (0x3018, 0)]]. eexists.
  split; [apply C35_demo_wf|]. split; [vm_compute; reflexivity|]. repeat split; vm_compute; reflexivity.
Qed.

(** The record of a 32-bit place is zero, not its value. *)
Theorem C35_short_record_refuted : exists info t image dest image' recs,
  well_formed info t image /\ relocate_image true info dest image [] = Ok (image', recs) /\
  In (24, 4%nat) (places (rva_offset info) t) /\ value_at image' (24, 4%nat) = 0x5020 /\
  flatten recs = Ok (le_bytes 8 0x5010 ++ le_bytes 4 0).
Proof.
  exists demo_info, demo_table, demo, 0x5000. eexists. eexists. split; [apply C35_demo_wf|]. split; [vm_compute; reflexivity|].
  split; [right; left; reflexivity|]. split; vm_compute; reflexivity.
Qed.

(** An image loaded at its preferred address gets an empty record, although it has places. *)
Theorem C35_preferred_address_record_refuted : exists info t image image' recs,
  well_formed info t image /\ places (rva_offset info) t <> [] /\
  relocate_image true info (preferred info image) image [] = Ok (image', recs) /\ flatten recs = Ok [].
Proof.
  exists demo_info, demo_table, demo. eexists. eexists. split; [apply C35_demo_wf|]. split; [discriminate|]. split; vm_compute; reflexivity.
Qed.

(** A resource section with two named entries; the second is L"HII".  It is not found: the loop looks at the first
    entry again and again. *)
Definition two_names : list N :=
  repeat 0 12 ++ [2; 0; 0; 0] ++ le_bytes 4 (0x80000000 + 32) ++ le_bytes 4 48 ++ le_bytes 4 (0x80000000 + 36) ++ le_bytes 4 48 ++
  [1; 0; 0x41; 0] ++ [3; 0; 0x48; 0; 0x49; 0; 0x49; 0] ++ repeat 0 4 ++ le_bytes 4 77 ++ le_bytes 4 5 ++ repeat 0 8.
Theorem C35_second_name_refuted :
  load_resource true two_names [Sec RSRC 64 0 64 0 0] = Ok None /\
  firstn 8 (skipn 36 two_names) = [3; 0; 0x48; 0; 0x49; 0; 0x49; 0] /\ le_at two_names 24 4 = 0x80000000 + 36 /\ le_at two_names 28 4 = 48 /\
  le_at two_names 48 4 = 77.
Proof. repeat split; vm_compute; reflexivity. Qed.

(** In a debug build many entries panic. *)
Theorem C35_resource_debug_panic_refuted : exists image, load_resource true image [Sec RSRC 16 0 16 0 0] = Panic.
Proof. exists (repeat 255 16). vm_compute. reflexivity. Qed.

Definition one_name : list N :=
  repeat 0 12 ++ [1; 0; 0; 0] ++ le_bytes 4 (0x80000000 + 88) ++ le_bytes 4 (0x80000000 + 24) ++
  repeat 0 12 ++ [0; 0; 1; 0] ++ le_bytes 4 1 ++ le_bytes 4 (0x80000000 + 48) ++
  repeat 0 12 ++ [0; 0; 1; 0] ++ le_bytes 4 1 ++ le_bytes 4 72 ++
  le_bytes 4 77 ++ le_bytes 4 5 ++ repeat 0 8 ++ [3; 0; 0x48; 0; 0x49; 0; 0x49; 0].
Example C35_demo_resource : hii_first one_name 1 0 88 24 48 72 /\ load_resource true one_name [Sec RSRC 96 0 96 0 0] = Ok (Some (77, 5)).
Proof.
  split; [|vm_compute; reflexivity].
  constructor; try reflexivity; try (vm_compute; discriminate); repeat split; try reflexivity; vm_compute; discriminate.
Qed.

Print Assumptions C35_load.
Print Assumptions C35_load_refused.
Print Assumptions C35_relocate.
Print Assumptions C35_relocate_again.
Print Assumptions C35_relocate_back.
Print Assumptions C35_table_is_safe.
Print Assumptions C35_relocate_panics_only.
Print Assumptions C35_record.
Print Assumptions C35_record_makes_no_difference.
Print Assumptions C35_resource_is_safe.
Print Assumptions C35_resource_found.
Print Assumptions C35_filename.
Print Assumptions C35_unknown_kind_refuted.
Print Assumptions C35_changed_value_refuted.
Print Assumptions C35_short_record_refuted.
Print Assumptions C35_preferred_address_record_refuted.
Print Assumptions C35_second_name_refuted.
Print Assumptions C35_resource_debug_panic_refuted.
