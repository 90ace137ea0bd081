(* Several processes open a store at the same path at once. *)
From Coq Require Import String List Arith NArith Bool Lia Init.Byte ZifyBool ZifyNat.
From Verif Require Import Base Element Hash Sizing FS Sched Store VecStore DiskStore ListFacts Spec FileSpec StoreLaws FileFacts BuildFacts CompactFacts CompactTrees Race RaceFacts Cases Props_Compact.
Import ListNotations.

(* ---------------- C82 ---------------- *)
(* process k has returned r *)
Definition returned {E} (EO : ElementOps E) (path : string) (ps : nat -> caller) (sched : list (nat * nat)) (f0 : fs) (k : nat) (r : res disk_t) : Prop :=
  fst (race EO path ps sched f0) k = P_done r.

(* A process that runs alone does what the constructor of DiskStore.v does (the data
   written in one piece). *)
Theorem C82_alone : forall E (EO : ElementOps E) c size b data f k n m,
  List.length data <= S n -> 6 <= m ->
  let ps := fun _ : nat => {| ca_size := size; ca_data := data |} in
  let st := race EO (cfg_path c) ps (repeat (k, n) m) f in
  fst st k = P_done (fst (disk_new_from_slice_with_config EO size b data c f)) /\
  snd st = snd (disk_new_from_slice_with_config EO size b data c f).
Proof.
  intros E EO c size b data f k n m Hn Hm ps st.
  set (path := cfg_path c). set (a := {| ca_size := size; ca_data := data |}).
  pose (step := fun pf : pc * fs => pc_step EO path a n (fst pf) (snd pf)).
  assert (HST : forall p g, step (p, g) = pc_step EO path a n p g) by reflexivity. clearbody step.
  (* the state of process k alone matters *)
  assert (G : forall l pcs f, let st := fold_left (fun st x => race_step EO path ps x st) (repeat (k, n) l) (pcs, f) in
    let r := Nat.iter l step (pcs k, f) in fst st k = fst r /\ snd st = snd r).
  { assert (IT : forall {X} l (g : X -> X) x, Nat.iter l g (g x) = g (Nat.iter l g x)) by (intros X l g x; induction l as [|l IHl]; [reflexivity|]; change (Nat.iter (S l) g (g x)) with (g (Nat.iter l g (g x))); rewrite IHl; reflexivity).
    induction l as [|l IH]; intros pcs g; [cbn; auto|]. cbn [repeat fold_left].
    destruct (pc_step EO path a n (pcs k) g) as [p' f'] eqn:Q.
    assert (HS : race_step EO path ps (k, n) (pcs, g) = (fun j => if j =? k then p' else pcs j, f')).
    { unfold race_step. cbn [fst snd]. change (ps k) with a. rewrite Q. reflexivity. }
    rewrite HS.
    specialize (IH (fun j => if j =? k then p' else pcs j) f'). cbv zeta in IH |- *. cbv beta in IH. replace (k =? k) with true in IH by (symmetry; apply Nat.eqb_refl).
    assert (HI : Nat.iter (S l) step (pcs k, g) = Nat.iter l step (p', f')).
    { change (Nat.iter (S l) step (pcs k, g)) with (step (Nat.iter l step (pcs k, g))). rewrite <- IT, HST, Q. reflexivity. }
    rewrite HI. exact IH. }
  specialize (G m (fun _ => P_start) f). cbv zeta in G.
  assert (GG : fst st k = fst (Nat.iter m step (P_start, f)) /\ snd st = snd (Nat.iter m step (P_start, f))) by exact G. destruct GG as [-> ->]. clear G.
  (* done is the end *)
  assert (HD : forall l r g, Nat.iter l step (P_done r, g) = (P_done r, g))
    by (intros l r g; induction l as [|l IH]; [reflexivity|]; change (Nat.iter (S l) step (P_done r, g)) with (step (Nat.iter l step (P_done r, g))); rewrite IH, HST; reflexivity).
  assert (IT : forall {X} j (g : X -> X) x, Nat.iter (S j) g x = Nat.iter j g (g x)).
  { intros X j g x. induction j; [reflexivity|]. change (Nat.iter (S (S j)) g x) with (g (Nat.iter (S j) g x)). rewrite IHj. reflexivity. }
  assert (HR : Nat.iter m step (P_start, f) =
    match disk_new_from_slice_with_config EO size b data c f with (r, g) => (P_done r, g) end).
  2:{ rewrite HR. destruct (disk_new_from_slice_with_config EO size b data c f). split; reflexivity. }
  do 6 (destruct m as [|m]; [lia|]). clear Hm.
  unfold disk_new_from_slice_with_config.
  rewrite IT, HST. cbn [pc_step ca_data ca_size a].
  destruct (List.length data mod e_byte_len EO =? 0) eqn:H0.
  2:{ rewrite HD. reflexivity. }
  cbn [ensure]. rewrite (sbind_ok _ _ f tt f) by reflexivity. unfold disk_new_with_config. fold path.
  destruct (fs_exists f path) eqn:H1.
  - unfold sbind at 1. unfold sbind at 1. cbn [sget]. rewrite H1. unfold disk_new_from_disk, disk_new_from_disk_with_path. fold path. rewrite H1. cbn [ensure rbind].
    rewrite IT, HST. cbn [pc_step]. rewrite H1. rewrite IT, HST. cbn [pc_step].
    assert (HO : exists h, fs_open_ro f path = Ok h).
    { unfold fs_exists in H1. unfold fs_open_ro. destruct (fs_dir f path); [eauto|discriminate]. }
    destruct HO as [h' HO].
    assert (HZ : forall h, Nat.iter (S m) step (P_size h, f) =
      (P_done (if fs_size f h =? size * e_byte_len EO then Ok {| ds_len := size; ds_file := h; ds_loaded := true; ds_size := fs_size f h |}
               else Err "Invalid formatted file provided"), f)).
    { intros h. rewrite IT, HST. cbn [pc_step ca_size a]. destruct (fs_size f h =? size * e_byte_len EO); rewrite HD; reflexivity. }
    assert (HZ2 : forall h, Nat.iter (S (S m)) step (P_size h, f) =
      (P_done (if fs_size f h =? size * e_byte_len EO then Ok {| ds_len := size; ds_file := h; ds_loaded := true; ds_size := fs_size f h |}
               else Err "Invalid formatted file provided"), f)).
    { intros h. rewrite IT, HST. cbn [pc_step ca_size a]. destruct (fs_size f h =? size * e_byte_len EO); rewrite HD; reflexivity. }
    assert (HZ3 : forall h, Nat.iter (S (S (S m))) step (P_size h, f) =
      (P_done (if fs_size f h =? size * e_byte_len EO then Ok {| ds_len := size; ds_file := h; ds_loaded := true; ds_size := fs_size f h |}
               else Err "Invalid formatted file provided"), f)).
    { intros h. rewrite IT, HST. cbn [pc_step ca_size a]. destruct (fs_size f h =? size * e_byte_len EO); rewrite HD; reflexivity. }
    destruct (fs_open_rw f path) as [h|e|e|] eqn:H2.
    + rewrite HZ3. cbn [rbind]. destruct (fs_size f h =? size * e_byte_len EO); reflexivity.
    + rewrite IT, HST. cbn [pc_step]. rewrite HO, HZ2. cbn [rbind]. destruct (fs_size f h' =? size * e_byte_len EO); reflexivity.
    + rewrite IT, HST. cbn [pc_step]. rewrite HO, HZ2. cbn [rbind]. destruct (fs_size f h' =? size * e_byte_len EO); reflexivity.
    + rewrite IT, HST. cbn [pc_step]. rewrite HO, HZ2. cbn [rbind]. destruct (fs_size f h' =? size * e_byte_len EO); reflexivity.
  - rewrite IT, HST. cbn [pc_step].
    unfold sbind at 1. unfold sbind at 1. cbn [sget]. rewrite H1. unfold sbind at 1.
    destruct (fs_create_new path f) as [[h|e|e|] f'] eqn:H2; try (rewrite HD; reflexivity).
    rewrite IT, HST. cbn [pc_step ca_size a ca_data]. unfold sbind at 1.
    destruct (fs_set_len h (e_byte_len EO * size) f') as [[u|e|e|] f2] eqn:H3; try (rewrite HD; reflexivity).
    cbn [sret]. unfold sret. cbn [ds_loaded]. unfold disk_fill, disk_store_copy_from_slice. cbn [fst snd ds_size ds_file].
    destruct (0 + List.length data <=? e_byte_len EO * size) eqn:H4; [|rewrite HD; reflexivity].
    rewrite IT, HST. cbn [pc_step ca_size a ca_data].
    destruct (0 <? List.length data) eqn:H5.
    + assert (HS : sub data 0 (S n) = data) by (unfold sub; cbn [skipn]; apply firstn_all2; exact Hn). rewrite HS.
      unfold on_fs. cbn [fst snd].
      destruct (fs_write_all_at h 0 data f2) as [[u'|e|e|] f3] eqn:H6; try (rewrite HD; reflexivity).
      rewrite IT, HST. cbn [pc_step ca_size a ca_data]. replace (0 + List.length data <? List.length data) with false by lia. rewrite HD. reflexivity.
    + unfold on_fs. cbn [fst snd]. unfold fs_write_all_at. replace (List.length data =? 0) with true by lia. rewrite HD. reflexivity.
Qed.

(* The path is free at first.  At most one process gets a new store; when it has, the
   file holds its data followed by zeros, whatever the others do.  Every other process
   gets an error, or opens that same file, and no process ends otherwise. *)
Theorem C82_one_partial : forall E (EO : ElementOps E) path ps sched f0 w s,
  fs_dir f0 path = None ->
  returned EO path ps sched f0 w (Ok s) -> ds_loaded s = false ->
  let f := snd (race EO path ps sched f0) in
  fs_file f path = Some (ca_data (ps w) ++ repeat x00 (e_byte_len EO * ca_size (ps w) - List.length (ca_data (ps w)))) /\
  fs_dir f path = Some (h_ino (ds_file s)) /\
  forall k r, k <> w -> returned EO path ps sched f0 k r ->
    (exists e, r = Err e) \/
    exists s', r = Ok s' /\ ds_loaded s' = true /\ h_ino (ds_file s') = h_ino (ds_file s) /\ ds_len s' = ca_size (ps k).
Proof.
  intros E EO path ps sched f0 w s Hf Hw Hl f. unfold returned in *.
  pose proof (race_all_inv EO path ps f0 Hf sched) as HI. unfold f. destruct (race EO path ps sched f0) as [pcs f'] eqn:Q. cbn [fst snd] in *.
  destruct HI as [[H1 _]|(w' & H1 & H2 & H3 & H4 & H5 & H6 & H7)].
  { specialize (H1 w). cbn [fst] in H1. rewrite Hw in H1. contradiction. }
  destruct (Nat.eq_dec w w') as [<-|Hne].
  2:{ specialize (H6 w Hne). rewrite Hw in H6. destruct H6 as [H6 _]. congruence. }
  rewrite Hw in H7. destruct H7 as ((F1 & F2 & F3 & F4) & H7 & H8). unfold fs_file. rewrite H1, H8, F2. cbn [h_ino].
  split; [unfold body; rewrite firstn_all; reflexivity|]. split; [reflexivity|].
  intros k r Hk Hr. specialize (H6 k Hk). rewrite Hr in H6. destruct r as [s'|e|e|]; cbn in H6; try contradiction.
  - right. exists s'. destruct H6 as (L1 & L2 & L3 & L4). auto.
  - left. eauto.
Qed.

(* the winner is the only one *)
Theorem C82_unique_partial : forall E (EO : ElementOps E) path ps sched f0 k1 k2 s1 s2,
  fs_dir f0 path = None ->
  returned EO path ps sched f0 k1 (Ok s1) -> ds_loaded s1 = false ->
  returned EO path ps sched f0 k2 (Ok s2) -> ds_loaded s2 = false -> k1 = k2.
Proof.
  intros E EO path ps sched f0 k1 k2 s1 s2 Hf H1 L1 H2 L2.
  destruct (Nat.eq_dec k1 k2) as [|Hne]; [assumption|exfalso].
  destruct (C82_one_partial E EO path ps sched f0 k1 s1 Hf H1 L1) as (_ & _ & H).
  destruct (H k2 (Ok s2) ltac:(congruence) H2) as [[e He]|(s' & He & Hl & _)]; [discriminate|]. inversion He; subst. congruence.
Qed.

(* Whoever takes part, no other file changes. *)
Theorem C82_others_partial : forall E (EO : ElementOps E) path ps sched f0 q,
  fs_ok f0 -> fs_dir f0 path = None -> q <> path -> file_at (snd (race EO path ps sched f0)) q = file_at f0 q.
Proof.
  intros E EO path ps sched f0 q Hok Hf Hq. pose proof (race_all_inv EO path ps f0 Hf sched) as HI.
  destruct (race EO path ps sched f0) as [pcs f] eqn:Q. cbn [snd].
  destruct HI as [[_ H1]|(w & H1 & H2 & H3 & H4 & H5 & _)]; [cbn in H1; subst; reflexivity|].
  unfold file_at. rewrite H4 by exact Hq. destruct (fs_dir f0 q) as [j|] eqn:Hj; [|reflexivity].
  destruct Hok as [Hok _]. pose proof (Hok q j Hj). rewrite H5 by lia. reflexivity.
Qed.

(* The path holds a file from the beginning: nothing at all is changed and no process
   gets a new store. *)
Theorem C82_existing_partial : forall E (EO : ElementOps E) path ps sched f0 i,
  fs_dir f0 path = Some i ->
  snd (race EO path ps sched f0) = f0 /\
  forall k r, returned EO path ps sched f0 k r ->
    (exists e, r = Err e) \/
    exists s, r = Ok s /\ ds_loaded s = true /\ h_ino (ds_file s) = i /\ ds_len s = ca_size (ps k).
Proof.
  intros E EO path ps sched f0 i Hi. destruct (race_existing EO path ps f0 i sched Hi) as [H1 H2]. split; [exact H1|].
  intros k r Hr. specialize (H2 k). unfold returned in Hr. rewrite Hr in H2. destruct r as [s|e|e|]; cbn in H2; try contradiction.
  - right. exists s. destruct H2 as (L1 & L2 & L3 & L4). auto.
  - left. eauto.
Qed.

(* No process waits for another: it has returned after as many steps of its own as its
   data have bytes, and five. *)
Theorem C82_ends_partial : forall E (EO : ElementOps E) path ps sched f0 k,
  5 + List.length (ca_data (ps k)) <= List.length (filter (fun x => fst x =? k) sched) ->
  exists r, returned EO path ps sched f0 k r.
Proof.
  intros E EO path ps sched f0 k H. pose proof (race_left EO path ps k sched f0) as L. unfold returned.
  destruct (fst (race EO path ps sched f0) k) eqn:Q; cbn [pc_left] in L; try lia. eauto.
Qed.

(* Two processes with 4 bytes each, elements of one byte.  0 creates the file, 1 finds
   it before its length is set (and is refused), or in the middle of the writing. *)
Definition case_ps (k : nat) : caller := {| ca_size := 5; ca_data := [x01; x02; x03; if k =? 0 then x04 else x05] |}.
Definition case_race (sched : list nat) : list nat * list (option (bool * list nat)) :=
  let st := race BO "p" case_ps (map (fun k => (k, 1)) sched) fs_empty in
  (match fs_file (snd st) "p" with Some d => map Byte.to_nat d | None => [] end,
   map (fun k => match fst st k with
                 | P_done (Ok s) => Some (ds_loaded s, map (fun i => match disk_read_at BO (s, snd st) i with Ok x => val x | _ => 999 end) (seq 0 (ds_len s)))
                 | _ => None end) [0; 1]).
Example C82_case :
  (* both see the path free, 1 creates it, 0 gets an error *)
  case_race [0; 1; 1; 0; 1; 1; 1; 1] = ([1; 2; 3; 5; 0], [None; Some (false, [1; 2; 3; 5])]) /\
  (* 1 opens the file that 0 has created, before its length is set *)
  case_race [0; 0; 1; 1; 1; 1; 0; 0; 0; 0] = ([1; 2; 3; 4; 0], [Some (false, [1; 2; 3; 4]); None]) /\
  (* 1 opens it at the end *)
  case_race [0; 0; 0; 0; 0; 0; 1; 1; 1; 1] = ([1; 2; 3; 4; 0], [Some (false, [1; 2; 3; 4]); Some (true, [1; 2; 3; 4; 0])]).
Proof. vm_compute. repeat split; reflexivity. Qed.

(* The full statement says that a store which is opened holds the data of the process
   that made the file.  It does not: process 1 returns when nothing has been written. *)
Theorem C82_refuted : exists sched s,
  returned BO "p" case_ps sched fs_empty 1 (Ok s) /\ ds_loaded s = true /\
  (forall k s', returned BO "p" case_ps sched fs_empty k (Ok s') -> ds_loaded s' = true) /\
  fs_file (snd (race BO "p" case_ps sched fs_empty)) "p" = Some [x00; x00; x00; x00; x00] /\
  disk_read_at BO (s, snd (race BO "p" case_ps sched fs_empty)) 0 = Ok (el 0).
Proof.
  exists (map (fun k => (k, 1)) [0; 0; 0; 1; 1; 1; 1]). eexists. split; [vm_compute; reflexivity|]. split; [reflexivity|]. split.
  - intros k s' H. destruct k as [|[|k]].
    + vm_compute in H. discriminate.
    + unfold returned in H. vm_compute in H. inversion H. reflexivity.
    + exfalso. unfold returned in H. cbn in H. discriminate.
  - split; vm_compute; reflexivity.
Qed.
Print Assumptions C82_alone.
Print Assumptions C82_one_partial.
Print Assumptions C82_unique_partial.
Print Assumptions C82_others_partial.
Print Assumptions C82_existing_partial.
Print Assumptions C82_ends_partial.
Print Assumptions C82_refuted.
