(* What the tree constructors that take configurations do to the other files,
   whether they succeed or not. *)
From Coq Require Import String List Arith Bool Lia Init.Byte ZifyBool ZifyNat.
From Verif Require Import Base Element Hash Sizing FS Sched Store VecStore DiskStore MmapStore LevelCache ProofModel Tree ListFacts Spec SpecFacts SizingFacts SchedFacts StoreLaws RowFacts ChunkFacts BuildFacts BuildLoop StoreSpec FileFacts MapLayer DiskFacts ArraySpec ArrayFacts ArrayStart FrameFacts FileSpec Props_Files.
Import ListNotations.

(* every file but those at the paths [ps] is what it was *)
Definition only (ps : string -> Prop) (f f' : fs) : Prop :=
  fs_ok f -> fs_ok f' /\ forall q, ~ ps q -> file_at f' q = file_at f q.

Lemma only_refl ps f : only ps f f.
Proof. intros W. auto. Qed.
Lemma only_trans ps f1 f2 f3 : only ps f1 f2 -> only ps f2 f3 -> only ps f1 f3.
Proof.
  intros H1 H2 W. destruct (H1 W) as [W1 Q1]. destruct (H2 W1) as [W2 Q2]. split; [exact W2|].
  intros q Hq. rewrite Q2 by exact Hq. auto.
Qed.
Lemma only_weaken (ps qs : string -> Prop) f f' : (forall q, ps q -> qs q) -> only ps f f' -> only qs f f'.
Proof. intros H H1 W. destruct (H1 W) as [W1 Q1]. split; [exact W1|]. intros q Hq. apply Q1. intros Hp. exact (Hq (H q Hp)). Qed.
Lemma only_bind {X Y} ps (m : SM fs X) (k : X -> SM fs Y) f :
  only ps f (snd (m f)) -> (forall x f1, m f = (Ok x, f1) -> only ps f1 (snd (k x f1))) -> only ps f (snd (sbind m k f)).
Proof.
  intros Hm Hk. unfold sbind. destruct (m f) as [r f1] eqn:G. cbn [snd] in Hm. destruct r; cbn [snd]; auto.
  eapply only_trans; [exact Hm|]. apply Hk. reflexivity.
Qed.
Lemma only_pure {X} ps (m : SM fs X) f : snd (m f) = f -> only ps f (snd (m f)).
Proof. intros ->. apply only_refl. Qed.
Lemma only_smap {X Y} ps (g : X -> SM fs Y) l : (forall x f, In x l -> only ps f (snd (g x f))) -> forall f, only ps f (snd (smap g l f)).
Proof.
  induction l as [|x l IH]; intros Hg f; cbn [smap]; [apply only_refl|].
  apply only_bind; [apply Hg; left; reflexivity|]. intros y f1 _. apply only_bind; [apply IH; intros; apply Hg; right; auto|].
  intros. apply only_refl.
Qed.

Lemma frame_ok o f f' : fs_frame o f f' -> fs_ok f -> fs_ok f'.
Proof.
  intros (F1 & F2 & _) [W1 W2]. split.
  - intros p i. rewrite F1, F2. apply W1.
  - intros p q i. rewrite !F1. apply W2.
Qed.
Lemma others p i f f' q : fs_ok f ->
  (at_path p i f \/ fs_dir f p = None /\ i = fs_next f) ->
  (forall q, q <> p -> fs_dir f' q = fs_dir f q) -> (forall j, j <> i -> fs_ino f' j = fs_ino f j) ->
  q <> p -> file_at f' q = file_at f q.
Proof.
  intros [W1 W2] Hi Hd Hn Hq. unfold file_at. rewrite Hd by auto. destruct (fs_dir f q) as [j|] eqn:Hj; [|reflexivity].
  rewrite Hn; [reflexivity|]. intros ->. destruct Hi as [Hi|[_ Hi]].
  - apply Hq. eapply W2; eauto.
  - apply W1 in Hj. lia.
Qed.
Lemma frame_only p i f f' : fs_dir f p = Some i -> fs_frame (Some i) f f' -> only (eq p) f f'.
Proof.
  intros Hp HF W. split; [eapply frame_ok; eauto|]. intros q Hq. destruct HF as (F1 & F2 & F3 & _). destruct W as [W1 W2].
  apply (others p i f f' q); [split; auto|left; exact Hp|auto|intros j Hj; apply F3; congruence|congruence].
Qed.
Lemma remove_only p f : only (eq p) f (snd (fs_remove p f)).
Proof.
  unfold fs_remove. destruct (fs_exists f p); [|apply only_refl]. cbn [snd]. intros [W1 W2]. split.
  - split; cbn [fs_dir fs_next]; intros q; intros; repeat match goal with H : context [String.eqb ?x ?y] |- _ => destruct (String.eqb x y) end;
      try discriminate; eauto.
  - intros q Hq. unfold file_at. cbn [fs_dir fs_ino]. destruct (String.eqb_spec q p); [subst; tauto|reflexivity].
Qed.

(* fs_ok is kept *)
Definition keeps {X} (m : SM fs X) : Prop := forall f, fs_ok f -> fs_ok (snd (m f)).
Lemma keeps_bind {X Y} (m : SM fs X) (k : X -> SM fs Y) : keeps m -> (forall x, keeps (k x)) -> keeps (sbind m k).
Proof.
  intros Hm Hk f W. unfold sbind. specialize (Hm f W). destruct (m f) as [r f1]. cbn [snd] in Hm. destruct r; cbn [snd]; auto. apply Hk. exact Hm.
Qed.
Lemma keeps_pure {X} (m : SM fs X) : (forall f, snd (m f) = f) -> keeps m.
Proof. intros H f W. rewrite H. exact W. Qed.
Lemma keeps_frame {X} (m : SM fs X) : (forall f, exists o, fs_frame o f (snd (m f))) -> keeps m.
Proof. intros H f W. destruct (H f) as [o Ho]. eapply frame_ok; eauto. Qed.
Lemma keeps_create p : keeps (fs_create_new p).
Proof.
  intros f [W1 W2]. unfold fs_create_new, fs_exists. destruct (fs_dir f p) eqn:Hp; [split; auto|]. cbn [fs_alloc snd]. split; cbn [fs_dir fs_next].
  - intros q i. destruct (String.eqb q p); intros H; [inversion H; lia|apply W1 in H; lia].
  - intros q q' i. destruct (String.eqb_spec q p), (String.eqb_spec q' p); intros H1 H2; subst; auto.
    + inversion H1; subst. apply W1 in H2. lia.
    + inversion H2; subst. apply W1 in H1. lia.
    + eauto.
Qed.
Lemma keeps_set_len h n : keeps (fs_set_len h n).
Proof. apply keeps_frame. intros f. eexists. apply set_len_frame. Qed.

Section News.
  Context {E : Type} (EO : ElementOps E).
  Lemma disk_newc_keeps size b c : keeps (disk_new_with_config EO size b c).
  Proof.
    unfold disk_new_with_config. apply keeps_bind; [apply keeps_pure; reflexivity|]. intros f. destruct (fs_exists f (cfg_path c)); [apply keeps_pure; reflexivity|].
    apply keeps_bind; [apply keeps_create|]. intros h. apply keeps_bind; [apply keeps_set_len|]. intros; apply keeps_pure; reflexivity.
  Qed.
  Lemma mmap_newc_keeps size b c : keeps (mmap_new_with_config EO size b c).
  Proof.
    unfold mmap_new_with_config. apply keeps_bind; [apply keeps_pure; reflexivity|]. intros f. destruct (fs_exists f (cfg_path c)); [apply keeps_pure; reflexivity|].
    apply keeps_bind; [apply keeps_create|]. intros h. apply keeps_bind; [apply keeps_set_len|]. intros; apply keeps_pure. intros g. unfold sbind, mm_map_mut, slift. destruct (fs_map_mut h); reflexivity.
  Qed.
  Lemma lc_newc_keeps size b c : keeps (lc_new_with_config EO size b c).
  Proof.
    unfold lc_new_with_config. apply keeps_bind; [apply keeps_pure; reflexivity|]. intros f. destruct (fs_exists f (cfg_path c)); [apply keeps_pure; reflexivity|].
    apply keeps_bind; [apply keeps_create|]. intros h. do 4 (apply keeps_bind; [apply keeps_pure; reflexivity|intros]).
    apply keeps_bind; [apply keeps_set_len|]. intros; apply keeps_pure; reflexivity.
  Qed.
  Lemma disk_slicec_keeps size b data c : keeps (disk_new_from_slice_with_config EO size b data c).
  Proof.
    unfold disk_new_from_slice_with_config. apply keeps_bind; [apply keeps_pure; reflexivity|]. intros _. apply keeps_bind; [apply disk_newc_keeps|].
    intros s. destruct (ds_loaded s); [apply keeps_pure; reflexivity|]. apply keeps_frame. intros f. exists (Some (h_ino (ds_file s))).
    unfold disk_fill, disk_store_copy_from_slice. cbn [fst]. destruct (_ <=? _); [|apply fs_frame_refl].
    unfold on_fs. cbn [fst snd]. pose proof (write_all_frame (ds_file s) 0 data f) as HF. destruct (fs_write_all_at _ _ _ _) as [r f2]. destruct r; exact HF.
  Qed.
  Lemma lc_slicec_keeps size b data c : keeps (lc_new_from_slice_with_config EO size b data c).
  Proof.
    unfold lc_new_from_slice_with_config. apply keeps_bind; [apply keeps_pure; reflexivity|]. intros _. apply keeps_bind; [apply lc_newc_keeps|].
    intros s. destruct (lc_loaded s); [apply keeps_pure; reflexivity|]. apply keeps_frame. intros f. exists (Some (h_ino (lc_file s))).
    unfold lc_fill, lc_store_copy_from_slice. cbn [fst]. destruct (_ <=? _); [|apply fs_frame_refl].
    unfold on_fs. cbn [fst snd]. pose proof (write_all_frame (lc_file s) 0 data f) as HF. destruct (fs_write_all_at _ _ _ _) as [r f2]. destruct r; exact HF.
  Qed.
  Lemma mmap_slicec_keeps size b data c : keeps (mmap_new_from_slice_with_config EO size b data c).
  Proof.
    unfold mmap_new_from_slice_with_config. apply keeps_bind; [apply keeps_pure; reflexivity|]. intros _. apply keeps_bind; [apply mmap_newc_keeps|].
    intros s. apply keeps_frame. intros f. exists (Some (h_ino (mm_file s))). unfold mmap_fill.
    assert (G : fr (fun s' => mown s' (h_ino (mm_file s))) (fun _ => True) (fs_frame (Some (h_ino (mm_file s)))) (let! _ := mmap_ensure_map in mmap_store 0 data)).
    { apply fr_bind.
      - intros x y w. apply fs_frame_trans.
      - auto.
      - intros st Ho' _. unfold mmap_ensure_map, mmap_reinit, mm_map_mut, fs_map_mut. destruct (mm_map (fst st)); [cbn; split; [exact Ho'|apply fs_frame_refl]|].
        destruct (h_write _); cbn; (split; [exact Ho'|apply fs_frame_refl]).
      - intros _ st Ho' _. unfold mmap_store. destruct (mm_map (fst st)); [|cbn; split; [exact Ho'|apply fs_frame_refl]].
        destruct (_ <=? _); [|cbn; split; [exact Ho'|apply fs_frame_refl]]. unfold on_fs.
        pose proof (map_write_frame (mm_file (fst st)) 0 data (snd st)) as HF. destruct (fs_map_write _ _ _ _). cbn [fst snd] in *.
        unfold mown, mmap_own in Ho'. rewrite Ho' in HF. auto. }
    specialize (G (s, f) eq_refl I). destruct ((let! _ := mmap_ensure_map in mmap_store 0 data) (s, f)) as [r [s2 f2]]. cbn [fst snd] in G. destruct G as [G1 G2].
    destruct r; exact G2.
  Qed.
End News.

(* stores that keep to their file *)
Record FileBound {E} (SO : StoreOps E) (own : st_t SO -> nat -> Prop) : Prop := {
  fb_newc : forall size b c f, touches SO own (cfg_path c) f (st_new_with_config SO size b c f);
  fb_newc_ok : forall size b c, keeps (st_new_with_config SO size b c);
  fb_slice : forall size b data c f, touches SO own (cfg_path c) f (st_new_from_slice_with_config SO size b data c f);
  fb_slice_ok : forall size b data c, keeps (st_new_from_slice_with_config SO size b data c);
  fb_copy : forall p i d k, fr (fun s => own s i) (at_path p i) (fs_frame (Some i)) (st_copy_from_slice SO d k);
  fb_sync : forall p i, fr (fun s => own s i) (at_path p i) (fs_frame (Some i)) (st_sync SO);
  fb_build : forall i en A b n rc c, fr (fun s => own s i) (at_path (cfg_path c) i) (fs_frame (Some i)) (st_build SO en A b n rc (Some c))
}.

Lemma disk_bound {E} (EO : ElementOps E) : FileBound (disk_store EO) down.
Proof.
  constructor.
  - intros. apply disk_newc_touches.
  - intros. apply disk_newc_keeps.
  - intros. apply disk_slicec_touches.
  - intros. apply disk_slicec_keeps.
  - intros. apply disk_slice_fr.
  - intros. apply fr_pure; [apply fs_frame_refl|reflexivity].
  - intros. apply disk_build_fr.
Qed.
Lemma mmap_bound {E} (EO : ElementOps E) : FileBound (mmap_store_ops EO) mown.
Proof.
  constructor.
  - intros. apply mmap_newc_touches.
  - intros. apply mmap_newc_keeps.
  - intros. apply mmap_slicec_touches.
  - intros. apply mmap_slicec_keeps.
  - intros. apply mmap_slice_fr.
  - intros. apply fr_pure; [apply fs_frame_refl|reflexivity].
  - intros. apply mmap_build_fr.
Qed.
Lemma lc_bound {E} (EO : ElementOps E) : FileBound (lc_store EO) lown.
Proof.
  constructor.
  - intros. apply lc_newc_touches.
  - intros. apply lc_newc_keeps.
  - intros. apply lc_slicec_touches.
  - intros. apply lc_slicec_keeps.
  - intros. apply lc_slice_fr.
  - intros. apply fr_pure; [apply fs_frame_refl|reflexivity].
  - intros. apply lc_build_fr. intros x Hx. inversion Hx. reflexivity.
Qed.

Section Ctors.
  Context {E : Type} (EO : ElementOps E) (SO : StoreOps E) (own : st_t SO -> nat -> Prop).
  Hypothesis FB : FileBound SO own.
  Variables (A : AlgOps E) (en : env) (b : nat).
  Local Notation T := (st_t SO).

  Definition FR (i : nat) (p : string) {X} (m : SM (T * fs) X) : Prop := fr (fun s => own s i) (at_path p i) (fs_frame (Some i)) m.
  Lemma FR_bind i p {X Y} (m : SM (T * fs) X) (k : X -> SM (T * fs) Y) : FR i p m -> (forall a, FR i p (k a)) -> FR i p (sbind m k).
  Proof. apply fr_bind; [apply fs_frame_trans|intros f g; apply at_path_frame]. Qed.
  Lemma FR_pure i p {X} (m : SM (T * fs) X) : (forall st, snd (m st) = st) -> FR i p m.
  Proof. apply fr_pure. apply fs_frame_refl. Qed.
  Lemma FR_expect i p {X} (m : SM (T * fs) X) msg : FR i p m -> FR i p (sexpect m msg).
  Proof. intros H st Ho Hp. specialize (H st Ho Hp). unfold sexpect. destruct (m st). exact H. Qed.
  Lemma FR_tasks i p {D} n (rd : nat -> T * fs -> res D) wr sched : (forall k d, FR i p (wr k d)) -> FR i p (run_tasks n rd wr sched).
  Proof. apply fr_tasks; [apply fs_frame_refl|apply fs_frame_trans|intros f g; apply at_path_frame]. Qed.

  Lemma populate_loop_fr i p block items : forall a buf, FR i p (populate_loop EO SO A block items a buf).
  Proof.
    induction items as [|it items IH]; intros a buf; cbn [populate_loop]; [apply FR_pure; reflexivity|].
    apply FR_bind; [apply FR_pure; reflexivity|]. intros x. destruct (a_leaf A (a_reset A a) x) as [h a']. destruct (_ <=? _); [|apply IH].
    apply FR_bind; [apply FR_pure; reflexivity|]. intros st. apply FR_bind; [apply (fb_copy _ _ FB)|]. intros _. apply IH.
  Qed.
  Lemma populate_fr i p items : FR i p (populate_data EO SO A en items).
  Proof.
    unfold populate_data. apply FR_bind; [apply FR_pure; reflexivity|]. intros st. destruct (negb _); [apply FR_pure; reflexivity|].
    apply FR_bind; [apply populate_loop_fr|]. intros buf. apply FR_bind; [apply FR_pure; reflexivity|]. intros st1.
    apply FR_bind; [apply (fb_copy _ _ FB)|]. intros _. apply (fb_sync _ _ FB).
  Qed.
  Lemma populate_par_fr i p items : FR i p (populate_data_par EO SO A en items).
  Proof.
    unfold populate_data_par. apply FR_bind; [apply FR_pure; reflexivity|]. intros st. destruct (negb _); [apply FR_pure; reflexivity|].
    apply FR_bind; [|intros _; apply (fb_sync _ _ FB)]. apply FR_tasks. intros k d. apply (fb_copy _ _ FB).
  Qed.

  (* a continuation that stays in the file *)
  Definition stays (p : string) {X} (k : T -> SM fs X) : Prop := forall s i f1, own s i -> at_path p i f1 -> fs_frame (Some i) f1 (snd (k s f1)).
  Lemma stays_pure p {X} (k : T -> SM fs X) : (forall s f, snd (k s f) = f) -> stays p k.
  Proof. intros H s i f Ho Hp. rewrite H. apply fs_frame_refl. Qed.
  Lemma stays_store p {X Y} (m : SM (T * fs) X) (k : X -> T -> SM fs Y) : (forall i, FR i p m) -> (forall x, stays p (k x)) ->
    stays p (fun s => sbind (with_store s m) (fun xs => let '(x, s') := xs in k x s')).
  Proof.
    intros Hm Hk s i f Ho Hp. unfold sbind, with_store. specialize (Hm i (s, f) Ho Hp). destruct (m (s, f)) as [r [s' f']].
    cbn [fst snd] in Hm. destruct Hm as [H1 H2]. destruct r; cbn [snd]; auto.
    eapply fs_frame_trans; [exact H2|]. apply (Hk a s' i f' H1). eapply at_path_frame; eauto.
  Qed.
  Lemma touches_only p f (rf : res T * fs) {X} (k : T -> SM fs X) : touches SO own p f rf -> (fs_ok f -> fs_ok (snd rf)) -> stays p k ->
    only (eq p) f (snd (sbind (fun _ => rf) k f)).
  Proof.
    intros HT HK Hk W. specialize (HK W). unfold sbind. destruct rf as [r f1]. cbn [fst snd] in *.
    assert (Q1 : forall q, ~ p = q -> file_at f1 q = file_at f q).
    { intros q Hq. destruct HT as [[H1 _]|(i & H1 & H2 & H3 & H4 & _)]; cbn [fst snd] in *; [subst; reflexivity|].
      eapply others; eauto. }
    destruct r as [s| | |]; cbn [snd]; auto.
    destruct HT as [[_ H2]|(i & H1 & H2 & H3 & H4 & H5)]; cbn [fst snd] in *; [exfalso; eapply H2; reflexivity|].
    specialize (Hk s i f1 (H5 s eq_refl) H1). destruct (frame_only p i f1 _ H1 Hk HK) as [W2 Q2]. split; [exact W2|].
    intros q Hq. rewrite Q2 by exact Hq. auto.
  Qed.
  Lemma newc_only size c f {X} (k : T -> SM fs X) : stays (cfg_path c) k ->
    only (eq (cfg_path c)) f (snd (sbind (st_new_with_config SO size b c) k f)).
  Proof. intros Hk. apply (touches_only _ _ _ k (fb_newc _ _ FB size b c f) (fb_newc_ok _ _ FB size b c f) Hk). Qed.
  Lemma slicec_only size data c f {X} (k : T -> SM fs X) : stays (cfg_path c) k ->
    only (eq (cfg_path c)) f (snd (sbind (st_new_from_slice_with_config SO size b data c) k f)).
  Proof. intros Hk. apply (touches_only _ _ _ k (fb_slice _ _ FB size b data c f) (fb_slice_ok _ _ FB size b data c f) Hk). Qed.

  Lemma lift_pure {X Y} (r : res X) (k : X -> SM fs Y) f : (forall x, snd (k x f) = f) -> snd (sbind (slift r) k f) = f.
  Proof. intros H. unfold sbind, slift. destruct r; cbn [snd]; auto. Qed.
  Lemma data_store_pure sub_ top s n f : snd (from_data_store SO b sub_ top s n f) = f.
  Proof.
    unfold from_data_store. do 8 (apply lift_pure; intros). unfold sbind, sreads. destruct (store_last SO s f); reflexivity.
  Qed.

  Lemma iter_only hint items c f : only (eq (cfg_path c)) f (snd (try_from_iter_with_config EO SO A en b hint items c f)).
  Proof.
    unfold try_from_iter_with_config. apply only_bind; [apply only_refl|]. intros n f1 _. apply only_bind; [apply only_refl|]. intros [size rc] f2 _.
    apply newc_only. intros s. destruct (st_loaded_from_disk SO s) eqn:G.
    - intros i f3 Ho Hp. unfold sbind, sreads. destruct (store_last SO s f3); apply fs_frame_refl.
    - revert s G. enough (H : stays (cfg_path c) (fun s => let! (_, data) := with_store s (sexpect (populate_data EO SO A en items) "failed to populate data") in
        let! (root, data0) := with_store data (st_build SO en A b n rc (Some c)) in sret (mk_base SO data0 n size rc root))).
      { intros s _. exact (H s). }
      apply stays_store; [intros i; apply FR_expect, populate_fr|]. intros _. apply stays_store; [intros i; apply (fb_build _ _ FB)|].
      intros x. apply stays_pure. reflexivity.
  Qed.
  Lemma par_only items c f : only (eq (cfg_path c)) f (snd (from_par_iter_with_config EO SO A en b items c f)).
  Proof.
    unfold from_par_iter_with_config. cbv zeta. apply only_bind; [apply only_refl|]. intros [size rc] f2 _.
    apply newc_only. intros s. destruct (st_loaded_from_disk SO s) eqn:G.
    - intros i f3 Ho Hp. unfold sbind, sreads. destruct (store_last SO s f3); apply fs_frame_refl.
    - revert s G. enough (H : stays (cfg_path c) (fun s => let! (_, data) := with_store s (populate_data_par EO SO A en items) in
        let! (root, data0) := with_store data (st_build SO en A b (List.length items) rc (Some c)) in sret (mk_base SO data0 (List.length items) size rc root))).
      { intros s _. exact (H s). }
      apply stays_store; [intros i; apply populate_par_fr|]. intros _. apply stays_store; [intros i; apply (fb_build _ _ FB)|].
      intros x. apply stays_pure. reflexivity.
  Qed.
  Lemma bytes_only data c f : only (eq (cfg_path c)) f (snd (from_byte_slice_with_config EO SO A en b data c f)).
  Proof.
    unfold from_byte_slice_with_config. apply only_bind; [apply only_refl|]. intros _ f1 _. apply only_bind; [apply only_refl|]. intros [size rc] f2 _.
    apply slicec_only. apply stays_store; [intros i; apply (fb_build _ _ FB)|]. intros x. apply stays_pure. reflexivity.
  Qed.
  Lemma tree_slice_only sub_ top data n c f : only (eq (cfg_path c)) f (snd (from_tree_slice_with_config EO SO b sub_ top data n c f)).
  Proof.
    unfold from_tree_slice_with_config. apply only_bind; [apply only_refl|]. intros size f1 _. apply slicec_only.
    intros s i f2 Ho Hp. unfold sbind, sreads. destruct (store_last SO s f2); apply fs_frame_refl.
  Qed.
  Definition at_one (cs : list StoreConfig) (p : string) : Prop := exists c, In c cs /\ cfg_path c = p.
  Lemma one_of c cs f f' : In c cs -> only (eq (cfg_path c)) f f' -> only (at_one cs) f f'.
  Proof. intros H. apply only_weaken. intros q <-. exists c. auto. Qed.

  Lemma slices_only sub_ data n cs f : only (at_one cs) f (snd (from_slices_with_configs EO SO A b sub_ data n cs f)).
  Proof.
    unfold from_slices_with_configs. apply only_bind; [|intros; apply only_refl]. apply only_smap. intros [i d] f1 _.
    apply only_bind; [apply only_refl|]. intros c f2 H. unfold slift, rnth in H. destruct (nth_error cs i) eqn:G; inversion H; subst.
    apply (one_of c); [eapply nth_error_In; eauto|apply tree_slice_only].
  Qed.
  Lemma configs_only sub_ n cs f : only (at_one cs) f (snd (from_store_configs SO A b sub_ n cs f)).
  Proof.
    unfold from_store_configs. apply only_bind; [|intros; apply only_refl]. apply only_smap. intros c f1 Hc. apply (one_of c); [exact Hc|].
    apply only_bind; [apply only_refl|]. intros size f2 _. apply newc_only. apply stays_pure. intros. apply data_store_pure.
  Qed.
  Lemma sub_configs_only sub_ top n cs f : only (at_one cs) f (snd (from_sub_tree_store_configs SO A b sub_ top n cs f)).
  Proof.
    unfold from_sub_tree_store_configs. destruct (top =? 0); [apply only_refl|]. cbv zeta.
    apply only_bind; [|intros; apply only_refl]. apply only_smap. intros k f1 _. eapply only_weaken; [|apply configs_only].
    intros q (c & Hc & Hq). exists c. split; [|exact Hq]. unfold sub in Hc. set (m := k * _) in Hc. rewrite <- (firstn_skipn m cs). apply in_or_app. right. rewrite <- (firstn_skipn (List.length cs / top) (skipn m cs)). apply in_or_app. left. exact Hc.
  Qed.
End Ctors.

Lemma bind_pure {X Y} (m : SM fs X) (k : X -> SM fs Y) f : snd (m f) = f -> (forall x, snd (k x f) = f) -> snd (sbind m k f) = f.
Proof. intros Hm Hk. unfold sbind. destruct (m f) as [[] f1]; cbn [snd] in *; subst; auto. Qed.
Lemma smap_pure {X Y} (g : X -> SM fs Y) l f : (forall x, snd (g x f) = f) -> snd (smap g l f) = f.
Proof.
  intros Hg. induction l as [|x l IH]; cbn [smap]; [reflexivity|]. apply bind_pure; [apply Hg|]. intros y. apply bind_pure; [exact IH|reflexivity].
Qed.

(* VecStore touches no file *)
Section Vec.
  Context {E : Type} (EO : ElementOps E) (A : AlgOps E) (en : env) (b : nat).
  Local Notation VO := (vec_store EO).
  Local Notation T := (list E).
  Definition still {X} (m : SM (T * fs) X) : Prop := fr (fun _ : T => True) (fun _ => True) eq m.
  Lemma still_bind {X Y} (m : SM (T * fs) X) (k : X -> SM (T * fs) Y) : still m -> (forall a, still (k a)) -> still (sbind m k).
  Proof. apply fr_bind; [congruence|auto]. Qed.
  Lemma still_pure {X} (m : SM (T * fs) X) : (forall st, snd (m st) = st) -> still m.
  Proof. apply fr_pure. reflexivity. Qed.
  Lemma still_copy d k : still (vec_copy_from_slice EO d k).
  Proof.
    intros st _ _. split; [exact I|]. unfold vec_copy_from_slice, sbind, slift.
    repeat match goal with |- context [match ?r with Ok _ => _ | _ => _ end] => destruct r | |- context [if ?c then _ else _] => destruct c end; reflexivity.
  Qed.
  Lemma still_write x k : still (vec_write_at EO x k).
  Proof. intros st _ _. split; [exact I|reflexivity]. Qed.
  Lemma still_build n rc c : still (vec_build EO en A b n rc c).
  Proof.
    unfold vec_build. apply fr_default_build; try congruence; auto; intros; [apply still_write|apply still_copy].
  Qed.
  Lemma still_populate_loop block items : forall a buf, still (populate_loop EO VO A block items a buf).
  Proof.
    induction items as [|it items IH]; intros a buf; cbn [populate_loop]; [apply still_pure; reflexivity|].
    apply still_bind; [apply still_pure; reflexivity|]. intros x. destruct (a_leaf A (a_reset A a) x) as [h a']. destruct (_ <=? _); [|apply IH].
    apply still_bind; [apply still_pure; reflexivity|]. intros st. apply still_bind; [apply still_copy|]. intros _. apply IH.
  Qed.
  Lemma still_populate items : still (populate_data EO VO A en items).
  Proof.
    unfold populate_data. apply still_bind; [apply still_pure; reflexivity|]. intros st. destruct (negb _); [apply still_pure; reflexivity|].
    apply still_bind; [apply still_populate_loop|]. intros buf. apply still_bind; [apply still_pure; reflexivity|]. intros st1.
    apply still_bind; [apply still_copy|]. intros _. apply still_pure. reflexivity.
  Qed.
  Lemma still_populate_par items : still (populate_data_par EO VO A en items).
  Proof.
    unfold populate_data_par. apply still_bind; [apply still_pure; reflexivity|]. intros st. destruct (negb _); [apply still_pure; reflexivity|].
    apply still_bind; [|intros _; apply still_pure; reflexivity]. apply fr_tasks; try congruence; auto. intros k d. apply still_copy.
  Qed.
  Lemma still_store (s : T) {X} (m : SM (T * fs) X) f : still m -> snd (with_store s m f) = f.
  Proof. intros H. destruct (H (s, f) I I) as [_ Hf]. unfold with_store. destruct (m (s, f)) as [[] [s' f']]; cbn [snd] in *; auto. Qed.
  Lemma still_expect {X} (m : SM (T * fs) X) msg : still m -> still (sexpect m msg).
  Proof. intros H st H1 H2. specialize (H st H1 H2). unfold sexpect. destruct (m st). exact H. Qed.

  Lemma vec_iter_fs hint items c f : snd (try_from_iter_with_config EO VO A en b hint items c f) = f.
  Proof.
    unfold try_from_iter_with_config. apply bind_pure; [reflexivity|]. intros n. apply bind_pure; [reflexivity|]. intros [size rc].
    apply bind_pure; [reflexivity|]. intros s. cbn [st_loaded_from_disk vec_store].
    apply bind_pure; [apply still_store, still_expect, still_populate|]. intros [u s1]. apply bind_pure; [apply still_store; apply still_build|].
    intros [root s2]. reflexivity.
  Qed.
  Lemma vec_par_fs items c f : snd (from_par_iter_with_config EO VO A en b items c f) = f.
  Proof.
    unfold from_par_iter_with_config. cbv zeta. apply bind_pure; [reflexivity|]. intros [size rc].
    apply bind_pure; [reflexivity|]. intros s. cbn [st_loaded_from_disk vec_store].
    apply bind_pure; [apply still_store, still_populate_par|]. intros [u s1]. apply bind_pure; [apply still_store; apply still_build|].
    intros [root s2]. reflexivity.
  Qed.
  Lemma vec_newslice_fs size data c f : snd (st_new_from_slice_with_config VO size b data c f) = f.
  Proof. reflexivity. Qed.
  Lemma vec_bytes_fs data c f : snd (from_byte_slice_with_config EO VO A en b data c f) = f.
  Proof.
    unfold from_byte_slice_with_config. apply bind_pure; [reflexivity|]. intros _. apply bind_pure; [reflexivity|]. intros [size rc].
    apply bind_pure; [apply vec_newslice_fs|]. intros s. apply bind_pure; [apply still_store; apply still_build|]. intros [root s2]. reflexivity.
  Qed.
  Lemma vec_slice_fs sub_ top data n c f : snd (from_tree_slice_with_config EO VO b sub_ top data n c f) = f.
  Proof.
    unfold from_tree_slice_with_config. apply bind_pure; [reflexivity|]. intros size. apply bind_pure; [apply vec_newslice_fs|].
    intros s. apply bind_pure; reflexivity.
  Qed.
  Lemma vec_slices_fs sub_ data n cs f : snd (from_slices_with_configs EO VO A b sub_ data n cs f) = f.
  Proof.
    unfold from_slices_with_configs. apply bind_pure; [|reflexivity]. apply smap_pure. intros [i d]. apply bind_pure; [reflexivity|]. intros c. apply vec_slice_fs.
  Qed.
  Lemma vec_configs_fs sub_ n cs f : snd (from_store_configs VO A b sub_ n cs f) = f.
  Proof.
    unfold from_store_configs. apply bind_pure; [|reflexivity]. apply smap_pure. intros c. apply bind_pure; [reflexivity|]. intros size.
    apply bind_pure; [reflexivity|]. intros s. apply data_store_pure.
  Qed.
  Lemma vec_sub_configs_fs sub_ top n cs f : snd (from_sub_tree_store_configs VO A b sub_ top n cs f) = f.
  Proof.
    unfold from_sub_tree_store_configs. destruct (top =? 0); [reflexivity|]. cbv zeta. apply bind_pure; [|reflexivity]. apply smap_pure.
    intros k. apply vec_configs_fs.
  Qed.
End Vec.
