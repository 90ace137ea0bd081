(* What the operations of the stores leave untouched. *)
From Coq Require Import String List Arith Bool Lia Init.Byte ZifyBool ZifyNat.
From Verif Require Import Base Element Hash Sizing FS Sched Store VecStore DiskStore MmapStore LevelCache ListFacts Spec SpecFacts SizingFacts SchedFacts StoreLaws RowFacts ChunkFacts BuildFacts BuildLoop StoreSpec FileFacts MapLayer DiskFacts ArraySpec.
Import ListNotations.

Section Fr.
  Context {T : Type}.
  Local Notation St := (T * fs)%type.
  Variable own : T -> Prop.
  Variable P : fs -> Prop.
  Variable R : fs -> fs -> Prop.
  Hypothesis Rrefl : forall f, R f f.
  Hypothesis Rtrans : forall f g h, R f g -> R g h -> R f h.
  Hypothesis RP : forall f g, P f -> R f g -> P g.

  (* [m] keeps the invariant of the store and changes the file system only by R *)
  Definition fr {A} (m : SM St A) : Prop := forall st, own (fst st) -> P (snd st) ->
    own (fst (snd (m st))) /\ R (snd st) (snd (snd (m st))).

  Lemma fr_bind {A B} (m : SM St A) (k : A -> SM St B) : fr m -> (forall a, fr (k a)) -> fr (sbind m k).
  Proof.
    intros Hm Hk st Ho Hp. specialize (Hm st Ho Hp). unfold sbind. destruct (m st) as [r st1]. cbn [fst snd] in Hm.
    destruct Hm as [H1 H2]. destruct r; cbn [fst snd]; auto.
    destruct (Hk a st1 H1 (RP _ _ Hp H2)) as [H3 H4]. split; [exact H3|]. eapply Rtrans; eauto.
  Qed.
  Lemma fr_pure {A} (m : SM St A) : (forall st, snd (m st) = st) -> fr m.
  Proof. intros H st Ho Hp. rewrite H. auto. Qed.
  Lemma fr_ret {A} (a : A) : fr (sret a).
  Proof. apply fr_pure. reflexivity. Qed.
  Lemma fr_lift {A} (r : res A) : fr (slift r).
  Proof. apply fr_pure. reflexivity. Qed.
  Lemma fr_get : fr sget.
  Proof. apply fr_pure. reflexivity. Qed.
  Lemma fr_reads {A} (g : St -> res A) : fr (sreads g).
  Proof. apply fr_pure. reflexivity. Qed.

  Lemma fr_tasks {D} n (rd : nat -> St -> res D) wr sched : (forall k d, fr (wr k d)) -> fr (run_tasks n rd wr sched).
  Proof.
    intros Hw.
    assert (S1 : forall k ts fl st, own (fst st) -> P (snd st) ->
              own (fst (snd (task_step n rd wr k ts fl st))) /\ R (snd st) (snd (snd (task_step n rd wr k ts fl st)))).
    { intros k ts fl st Ho Hp. unfold task_step. destruct (k <? n); [|cbn; auto].
      destruct (ts k); [| |cbn; auto].
      - destruct (rd k st); cbn; auto.
      - specialize (Hw k d st Ho Hp). destruct (wr k d st) as [[]]; cbn in *; auto. }
    assert (S2 : forall l ts fl st, own (fst st) -> P (snd st) ->
              own (fst (snd (run_sched n rd wr l ts fl st))) /\ R (snd st) (snd (snd (run_sched n rd wr l ts fl st)))).
    { induction l as [|k l IH]; intros ts fl st Ho Hp; cbn [run_sched]; [cbn; auto|].
      specialize (S1 k ts fl st Ho Hp). destruct (task_step n rd wr k ts fl st) as [[ts1 fl1] st1]. cbn [snd] in S1.
      destruct S1 as [H1 H2]. destruct (IH ts1 fl1 st1 H1 (RP _ _ Hp H2)) as [H3 H4]. split; [exact H3|]. eapply Rtrans; eauto. }
    intros st Ho Hp. unfold run_tasks.
    pose proof (S2 sched (fun _ => TNew) None st Ho Hp) as H.
    destruct (run_sched n rd wr sched (fun _ => TNew) None st) as [[ts fl] st1]. cbn [snd] in H. destruct H as [H1 H2].
    destruct fl; [cbn; auto|].
    pose proof (S2 (completion n) ts None st1 H1 (RP _ _ Hp H2)) as H.
    destruct (run_sched n rd wr (completion n) ts None st1) as [[ts2 fl2] st2]. cbn [snd] in H. destruct H as [H3 H4].
    assert (R (snd st) (snd st2)) by (eapply Rtrans; eauto).
    destruct fl2; cbn [fst snd]; auto.
  Qed.

  Lemma fr_bytes n start rd comp wr most sched : (forall k j x, fr (wr k j x)) -> fr (run_bytes n start rd comp wr most sched).
  Proof.
    intros Hw.
    assert (S1 : forall k j ts fl st, own (fst st) -> P (snd st) ->
              own (fst (snd (byte_step n start rd comp wr k j ts fl st))) /\ R (snd st) (snd (snd (byte_step n start rd comp wr k j ts fl st)))).
    { intros k j ts fl st Ho Hp. unfold byte_step. destruct (k <? n); [|cbn; auto].
      destruct (ts k) as [|got|o|]; [| | |cbn; auto].
      - destruct (start k st); cbn; auto.
      - destruct (collect got); [destruct (comp k l); cbn; auto|].
        destruct (nth_error got j) as [[]|]; [cbn; auto| |cbn; auto]. destruct (rd k j st); cbn; auto.
      - destruct (nth_error o j) as [[x []]|]; [cbn; auto| |cbn; auto].
        specialize (Hw k j x st Ho Hp). destruct (wr k j x st) as [[]]; cbn in *; auto. }
    assert (S2 : forall l ts fl st, own (fst st) -> P (snd st) ->
              own (fst (snd (run_byte_sched n start rd comp wr l ts fl st))) /\ R (snd st) (snd (snd (run_byte_sched n start rd comp wr l ts fl st)))).
    { induction l as [|[k j] l IH]; intros ts fl st Ho Hp; cbn [run_byte_sched]; [cbn; auto|].
      specialize (S1 k j ts fl st Ho Hp). destruct (byte_step n start rd comp wr k j ts fl st) as [[ts1 fl1] st1]. cbn [snd] in S1.
      destruct S1 as [H1 H2]. destruct (IH ts1 fl1 st1 H1 (RP _ _ Hp H2)) as [H3 H4]. split; [exact H3|]. eapply Rtrans; eauto. }
    intros st Ho Hp. unfold run_bytes.
    pose proof (S2 sched (fun _ => BNew) None st Ho Hp) as H.
    destruct (run_byte_sched n start rd comp wr sched (fun _ => BNew) None st) as [[ts fl] st1]. cbn [snd] in H. destruct H as [H1 H2].
    destruct fl; [cbn; auto|].
    pose proof (S2 (byte_completion n most) ts None st1 H1 (RP _ _ Hp H2)) as H.
    destruct (run_byte_sched n start rd comp wr (byte_completion n most) ts None st1) as [[ts2 fl2] st2]. cbn [snd] in H. destruct H as [H3 H4].
    assert (R (snd st) (snd st2)) by (eapply Rtrans; eauto).
    destruct fl2; cbn [fst snd]; auto.
  Qed.

  Section Build.
    Context {E : Type} (EO : ElementOps E).
    Variable len : T -> nat.
    Variable read_at : St -> nat -> res E.
    Variable read_range : St -> nat -> nat -> res (list E).
    Variable write_at : E -> nat -> SM St unit.
    Variable copy_from_slice : list byte -> nat -> SM St unit.
    Hypothesis Hw : forall e i, fr (write_at e i).
    Hypothesis Hc : forall d i, fr (copy_from_slice d i).
    Variable A : AlgOps E.
    Variables b chunk : nat.

    Lemma fr_write_nodes l : forall i, fr (write_nodes write_at l i).
    Proof. induction l; intros i; cbn [write_nodes]; [apply fr_ret|apply fr_bind; auto]. Qed.
    Lemma fr_small fuel shift : forall lev w i, fr (small_tree_loop len read_range write_at A b fuel shift lev w i).
    Proof.
      induction fuel; intros lev w i; cbn [small_tree_loop]; [apply fr_lift|].
      destruct (1 <? w); [|apply fr_ret]. apply fr_bind; [apply fr_pure; reflexivity|]. intros [rs ws].
      apply fr_bind; [apply fr_reads|]. intros row. apply fr_bind; [apply fr_write_nodes|]. auto.
    Qed.
    Lemma fr_loop sched fuel shift : forall lev w i,
      fr (build_loop EO len read_range copy_from_slice A b chunk sched fuel shift lev w i).
    Proof.
      induction fuel; intros lev w i; cbn [build_loop]; [apply fr_lift|].
      destruct (1 <? w); [|apply fr_ret]. apply fr_bind; [apply fr_pure; reflexivity|]. intros [rs ws].
      apply fr_bind; [|auto]. unfold process_layer. apply fr_bind; [apply fr_lift|]. intros _. apply fr_tasks. auto.
    Qed.
    Lemma fr_default_build fuel small sched leafs rc :
      fr (default_build_fuel EO len read_at read_range write_at copy_from_slice A b chunk fuel small sched leafs rc).
    Proof.
      unfold default_build_fuel, build_small_tree_fuel.
      repeat (apply fr_bind; [apply fr_lift || apply fr_get|intros]).
      destruct (leafs <=? small).
      - apply fr_bind; [apply fr_lift|intros]. apply fr_bind; [apply fr_small|intros].
        apply fr_bind; [apply fr_lift|intros]. apply fr_pure. reflexivity.
      - apply fr_bind; [apply fr_loop|intros].
        apply fr_bind; [apply fr_lift|intros]. apply fr_pure. reflexivity.
    Qed.

    (* layers written through a map of the store's file *)
    Lemma fr_map_layer (file : T -> handle) rr sched w lev rs ws :
      (forall s0, own s0 -> forall off d st, own (fst st) -> P (snd st) -> R (snd st) (snd (fs_map_write (file s0) off d (snd st)))) ->
      fr (mmap_process_layer EO A b chunk file rr sched w lev rs ws).
    Proof.
      intros HM st Ho Hp. unfold mmap_process_layer, mmap_layer_by. unfold sbind at 1. cbn [sget].
      match goal with |- context [sbind ?m ?k st] => assert (G : fr (sbind m k)) end.
      { apply fr_bind; [apply fr_lift|intros]. apply fr_bind; [apply fr_lift|intros]. apply fr_bytes.
        intros k j x st0 Ho0 Hp0. unfold map_write.
        match goal with |- context [fs_map_write (file (fst st)) ?off ?d (snd st0)] =>
          pose proof (HM (fst st) Ho off d st0 Ho0 Hp0) as HM1; destruct (fs_map_write (file (fst st)) off d (snd st0)) as [r f'] end.
        cbn in *. auto. }
      exact (G st Ho Hp).
    Qed.
  End Build.
End Fr.

Lemma map_write_frame h off d f : fs_frame (Some (h_ino h)) f (snd (fs_map_write h off d f)).
Proof. unfold fs_map_write. destruct (_ || _); [apply fs_set_data_frame|apply fs_frame_refl]. Qed.

Lemma set_len_frame h n f : fs_frame (Some (h_ino h)) f (snd (fs_set_len h n f)).
Proof. unfold fs_set_len. destruct (h_write h); [apply fs_set_data_frame|apply fs_frame_refl]. Qed.

Lemma copy_loop_frame sizes r w fuel : forall k rpos wpos n f,
  fs_frame (Some (h_ino w)) f (snd (copy_loop fuel sizes k r w rpos wpos n f)).
Proof.
  induction fuel; intros k rpos wpos n f; cbn [copy_loop]; [apply fs_frame_refl|].
  destruct (_ =? 0); [apply fs_frame_refl|]. unfold sbind.
  pose proof (write_all_frame w wpos (sub (fs_data f (h_ino r)) rpos (S (sizes k))) f) as HF.
  destruct (fs_write_all_at _ _ _ _) as [r1 f1]. cbn [snd] in HF.
  destruct r1; auto. eapply fs_frame_trans; [exact HF|apply IHfuel].
Qed.

(* inode i sits at path p *)
Definition at_path (p : string) (i : nat) (f : fs) : Prop := fs_dir f p = Some i.

Lemma at_path_frame p i o f g : at_path p i f -> fs_frame o f g -> at_path p i g.
Proof. unfold at_path. intros H (F1 & _). rewrite F1. exact H. Qed.

Section Own.
  Context {E : Type} (EO : ElementOps E).
  Variable i : nat.
  Variable p : string.
  Let R := fs_frame (Some i).
  Let P := at_path p i.

  Lemma R_refl f : R f f.
  Proof. apply fs_frame_refl. Qed.
  Lemma R_trans f g h : R f g -> R g h -> R f h.
  Proof. apply fs_frame_trans. Qed.
  Lemma R_P f g : P f -> R f g -> P g.
  Proof. apply at_path_frame. Qed.

  (* ---- disk ---- *)
  Definition disk_own (s : disk_t) : Prop := h_ino (ds_file s) = i.
  Definition frD {A} (m : SM (disk_t * fs) A) := fr disk_own P R m.
  Lemma frD_bind {A B} (m : SM (disk_t * fs) A) (k : A -> SM (disk_t * fs) B) : frD m -> (forall a, frD (k a)) -> frD (sbind m k).
  Proof. apply fr_bind; eauto using R_trans, R_P. Qed.
  Lemma frD_pure {A} (m : SM (disk_t * fs) A) : (forall st, snd (m st) = st) -> frD m.
  Proof. apply fr_pure. apply R_refl. Qed.

  Lemma disk_copy_fr off d : frD (disk_store_copy_from_slice off d).
  Proof.
    intros st Ho Hp. unfold disk_store_copy_from_slice. destruct (_ <=? _); [|split; [exact Ho|apply R_refl]].
    unfold on_fs. pose proof (write_all_frame (ds_file (fst st)) off d (snd st)) as HF.
    destruct (fs_write_all_at _ _ _ _). cbn [fst snd] in *. unfold disk_own in Ho. rewrite Ho in HF. auto.
  Qed.
  Lemma disk_upd_fr n : frD (disk_upd_len n).
  Proof. intros st Ho Hp. split; [exact Ho|apply R_refl]. Qed.
  Lemma disk_write_fr e k : frD (disk_write_at EO e k).
  Proof.
    unfold disk_write_at. apply frD_bind; [apply disk_copy_fr|intros]. apply frD_bind; [apply frD_pure; reflexivity|intros].
    apply disk_upd_fr.
  Qed.
  Lemma disk_slice_fr d k : frD (disk_copy_from_slice EO d k).
  Proof.
    unfold disk_copy_from_slice. apply frD_bind; [apply frD_pure; reflexivity|intros].
    apply frD_bind; [apply disk_copy_fr|intros]. apply frD_bind; [apply frD_pure; reflexivity|intros].
    apply disk_upd_fr.
  Qed.
  Lemma disk_push_fr e : frD (disk_push EO e).
  Proof.
    unfold disk_push. apply frD_bind; [apply frD_pure; reflexivity|intros].
    apply frD_bind; [apply frD_pure; reflexivity|intros]. apply disk_write_fr.
  Qed.

  Lemma disk_build_fr en A b leafs rc c : frD (disk_build_fuel EO en A b (S leafs) leafs rc c).
  Proof.
    assert (HL : forall fuel shift lev w k, frD (disk_build_loop EO en A b fuel shift lev w k)).
    { induction fuel; intros shift lev w k; cbn [disk_build_loop]; [apply frD_pure; reflexivity|].
      destruct (1 <? w); [|apply frD_pure; reflexivity].
      apply frD_bind; [apply frD_pure; reflexivity|intros [rs ws]].
      apply frD_bind.
      - unfold disk_process_layer. apply fr_map_layer; eauto using R_refl, R_trans, R_P.
        intros s0 Hs0 off d st Ho Hp. unfold disk_own in Hs0. unfold R. rewrite <- Hs0. apply map_write_frame.
      - intros _. apply frD_bind; [apply frD_pure; reflexivity|intros].
        apply frD_bind; [apply disk_upd_fr|intros]. apply IHfuel. }
    unfold disk_build_fuel.
    repeat (apply frD_bind; [apply frD_pure; reflexivity|intros]).
    apply frD_bind; [apply HL|intros].
    repeat (apply frD_bind; [apply frD_pure; reflexivity|intros]).
    apply frD_pure. reflexivity.
  Qed.

  Lemma disk_compact_fr sizes b c v : cfg_path c = p -> frD (disk_compact EO sizes b c v).
  Proof.
    intros Hc st Ho Hp. unfold disk_compact, disk_compact_with. unfold sbind at 1. cbn [sget].
    assert (F : forall {A} (r : res A) (k : A -> SM (disk_t * fs) bool),
       (forall a, r = Ok a -> disk_own (fst (snd (k a st))) /\ R (snd st) (snd (snd (k a st)))) ->
       disk_own (fst (snd (sbind (slift r) k st))) /\ R (snd st) (snd (snd (sbind (slift r) k st)))).
    { intros A r k Hk. unfold sbind, slift. destruct r; cbn [fst snd]; auto using R_refl. }
    do 4 (apply F; intros ? ?). apply F. intros rh Hr. apply F. intros wh Hwh.
    assert (Hi : h_ino wh = i).
    { unfold fs_open_rw in Hwh. rewrite Hc in Hwh. unfold P, at_path in Hp. rewrite Hp in Hwh.
      destruct (i_ro _); inversion Hwh. reflexivity. }
    unfold sbind at 1. cbn [sput]. 
    set (st1 := (ds_set_file (fst st) wh, snd st)).
    assert (Ho1 : disk_own (fst st1)) by exact Hi.
    match goal with |- disk_own (fst (snd (?m st1))) /\ _ => assert (G : frD m) end.
    { apply frD_bind.
      - intros s2 Ho2 Hp2. unfold on_fs, fs_copy.
        match goal with |- context [copy_loop ?a ?b ?c ?d ?e ?f ?g ?h ?k] => pose proof (copy_loop_frame b d e a c f g h k) as HF; destruct (copy_loop a b c d e f g h k) end.
        cbn [fst snd] in *. rewrite Hi in HF. auto.
      - intros n. apply frD_bind; [apply frD_pure; reflexivity|intros].
        apply frD_bind.
        { intros s2 Ho2 Hp2. unfold on_fs. pose proof (set_len_frame wh (if v =? 1 then a * e_byte_len EO + a0 * e_byte_len EO else a0 * e_byte_len EO) (snd s2)) as HF.
          destruct (fs_set_len _ _ _). cbn [fst snd] in *. rewrite Hi in HF. auto. }
        intros. apply frD_bind; [apply disk_upd_fr|intros].
        repeat (apply frD_bind; [apply frD_pure; reflexivity|intros]). apply frD_pure. reflexivity. }
    exact (G st1 Ho1 Hp).
  Qed.

  (* ---- mmap ---- *)
  Definition mmap_own (s : mmap_t) : Prop := h_ino (mm_file s) = i.
  Definition frM {A} (m : SM (mmap_t * fs) A) := fr mmap_own P R m.
  Lemma frM_bind {A B} (m : SM (mmap_t * fs) A) (k : A -> SM (mmap_t * fs) B) : frM m -> (forall a, frM (k a)) -> frM (sbind m k).
  Proof. apply fr_bind; eauto using R_trans, R_P. Qed.
  Lemma frM_pure {A} (m : SM (mmap_t * fs) A) : (forall st, snd (m st) = st) -> frM m.
  Proof. apply fr_pure. apply R_refl. Qed.
  Lemma mmap_reinit_fr : frM mmap_reinit.
  Proof.
    intros st Ho Hp. unfold mmap_reinit, mm_map_mut, fs_map_mut.
    destruct (h_write _); cbn [rbind fst snd]; split; auto using R_refl.
  Qed.
  Lemma mmap_ensure_fr : frM mmap_ensure_map.
  Proof.
    intros st Ho Hp. unfold mmap_ensure_map. destruct (mm_map (fst st)); [split; [exact Ho|apply R_refl]|]. apply mmap_reinit_fr; auto.
  Qed.
  Lemma mmap_store_fr off d : frM (mmap_store off d).
  Proof.
    intros st Ho Hp. unfold mmap_store. destruct (mm_map _); [|split; [exact Ho|apply R_refl]].
    destruct (_ <=? _); [|split; [exact Ho|apply R_refl]].
    unfold on_fs. pose proof (map_write_frame (mm_file (fst st)) off d (snd st)) as HF.
    destruct (fs_map_write _ _ _ _). cbn [fst snd] in *. unfold mmap_own in Ho. rewrite Ho in HF. auto.
  Qed.
  Lemma mmap_upd_fr n : frM (mmap_upd_len n).
  Proof. intros st Ho Hp. split; [exact Ho|apply R_refl]. Qed.
  Lemma mmap_write_fr e k : frM (mmap_write_at EO e k).
  Proof.
    unfold mmap_write_at. apply frM_bind; [apply mmap_ensure_fr|intros]. apply frM_bind; [apply mmap_store_fr|intros].
    apply frM_bind; [apply frM_pure; reflexivity|intros]. apply mmap_upd_fr.
  Qed.
  Lemma mmap_slice_fr d k : frM (mmap_copy_from_slice EO d k).
  Proof.
    unfold mmap_copy_from_slice. apply frM_bind; [apply frM_pure; reflexivity|intros].
    apply frM_bind; [apply mmap_ensure_fr|intros]. apply frM_bind; [apply mmap_store_fr|intros].
    apply frM_bind; [apply frM_pure; reflexivity|intros]. apply mmap_upd_fr.
  Qed.
  Lemma mmap_push_fr e : frM (mmap_push EO e).
  Proof.
    unfold mmap_push. apply frM_bind; [apply mmap_ensure_fr|intros]. apply frM_bind; [apply frM_pure; reflexivity|intros].
    apply frM_bind; [apply frM_pure; reflexivity|intros]. apply mmap_write_fr.
  Qed.
  Lemma mmap_compact_fr sizes b c v : frM (mmap_compact sizes b c v).
  Proof. intros st Ho Hp. split; [exact Ho|apply R_refl]. Qed.
  Lemma mmap_build_fr en A b leafs rc c : frM (mmap_build EO en A b leafs rc c).
  Proof.
    unfold mmap_build. apply fr_default_build; eauto using R_refl, R_trans, R_P.
    - intros. apply mmap_write_fr.
    - intros. apply mmap_slice_fr.
  Qed.

  (* ---- level cache ---- *)
  Definition lc_own (s : lc_t) : Prop := h_ino (lc_file s) = i.
  Definition frL {A} (m : SM (lc_t * fs) A) := fr lc_own P R m.
  Lemma frL_bind {A B} (m : SM (lc_t * fs) A) (k : A -> SM (lc_t * fs) B) : frL m -> (forall a, frL (k a)) -> frL (sbind m k).
  Proof. apply fr_bind; eauto using R_trans, R_P. Qed.
  Lemma frL_pure {A} (m : SM (lc_t * fs) A) : (forall st, snd (m st) = st) -> frL m.
  Proof. apply fr_pure. apply R_refl. Qed.
  Lemma frL_lift {A B} (r : res A) (k : A -> SM (lc_t * fs) B) : (forall a, r = Ok a -> frL (k a)) -> frL (sbind (slift r) k).
  Proof. intros H st Ho Hp. unfold sbind, slift. destruct r; cbn [fst snd]; auto using R_refl. apply H; auto. Qed.
  Lemma lc_copy_fr off d : frL (lc_store_copy_from_slice off d).
  Proof.
    intros st Ho Hp. unfold lc_store_copy_from_slice. destruct (_ <=? _); [|split; [exact Ho|apply R_refl]].
    unfold on_fs. pose proof (write_all_frame (lc_file (fst st)) off d (snd st)) as HF.
    destruct (fs_write_all_at _ _ _ _). cbn [fst snd] in *. unfold lc_own in Ho. rewrite Ho in HF. auto.
  Qed.
  Lemma lc_upd_fr n : frL (lc_upd_len n).
  Proof. intros st Ho Hp. split; [exact Ho|apply R_refl]. Qed.
  Lemma lc_write_fr e k : frL (lc_write_at EO e k).
  Proof.
    unfold lc_write_at. apply frL_bind; [apply lc_copy_fr|intros]. apply frL_bind; [apply frL_pure; reflexivity|intros].
    apply lc_upd_fr.
  Qed.
  Lemma lc_slice_fr d k : frL (lc_copy_from_slice EO d k).
  Proof.
    unfold lc_copy_from_slice. apply frL_bind; [apply frL_pure; reflexivity|intros].
    apply frL_bind; [apply lc_copy_fr|intros]. apply frL_bind; [apply frL_pure; reflexivity|intros].
    apply lc_upd_fr.
  Qed.
  Lemma lc_push_fr e : frL (lc_push EO e).
  Proof.
    unfold lc_push. apply frL_bind; [apply frL_pure; reflexivity|intros].
    apply frL_bind; [apply frL_pure; reflexivity|intros]. apply lc_write_fr.
  Qed.

  Lemma lc_truncate_fr sizes c n : cfg_path c = p -> frL (lc_front_truncate EO sizes c n).
  Proof.
    intros Hc st Ho Hp. unfold lc_front_truncate. unfold sbind at 1. cbn [sget].
    assert (F : forall {A} (r : res A) (k : A -> SM (lc_t * fs) unit),
       (forall a, r = Ok a -> lc_own (fst (snd (k a st))) /\ R (snd st) (snd (snd (k a st)))) ->
       lc_own (fst (snd (sbind (slift r) k st))) /\ R (snd st) (snd (snd (sbind (slift r) k st)))).
    { intros A r k Hk. unfold sbind, slift. destruct r; cbn [fst snd]; auto using R_refl. }
    apply F; intros ? ?. apply F. intros rh Hr. apply F. intros wh Hwh.
    assert (Hi : h_ino wh = i).
    { unfold fs_open_rw in Hwh. rewrite Hc in Hwh. unfold P, at_path in Hp. rewrite Hp in Hwh.
      destruct (i_ro _); inversion Hwh. reflexivity. }
    unfold sbind at 1. cbn [sput].
    set (st1 := (lc_set_file (fst st) wh, snd st)).
    assert (Ho1 : lc_own (fst st1)) by exact Hi.
    match goal with |- lc_own (fst (snd (?m st1))) /\ _ => assert (G : frL m) end.
    { apply frL_bind.
      - intros s2 Ho2 Hp2. unfold on_fs, fs_copy.
        match goal with |- context [copy_loop ?a ?b ?c ?d ?e ?f ?g ?h ?k] => pose proof (copy_loop_frame b d e a c f g h k) as HF; destruct (copy_loop a b c d e f g h k) end.
        cbn [fst snd] in *. rewrite Hi in HF. auto.
      - intros w. apply frL_bind; [apply frL_pure; reflexivity|intros].
        intros s2 Ho2 Hp2. unfold on_fs. pose proof (set_len_frame wh w (snd s2)) as HF.
        destruct (fs_set_len _ _ _). cbn [fst snd] in *. rewrite Hi in HF. auto. }
    exact (G st1 Ho1 Hp).
  Qed.

  Lemma lc_build_fr en A b leafs rc c : (forall x, c = Some x -> cfg_path x = p) ->
    frL (lc_build_fuel EO en A b (S leafs) leafs rc c).
  Proof.
    intros Hc.
    assert (HL : forall x, cfg_path x = p -> forall fuel shift cis lev w k, frL (lc_build_loop EO en A b fuel shift cis x lev w k)).
    { intros x Hx. induction fuel; intros shift cis lev w k; cbn [lc_build_loop]; [apply frL_pure; reflexivity|].
      destruct (1 <? w); [|apply frL_pure; reflexivity].
      apply frL_bind; [apply frL_pure; reflexivity|intros st0].
      match goal with |- frL (let '(_, _) := ?q in _) => destruct q as [rs ws] end.
      apply frL_bind.
      - unfold lc_process_layer. apply fr_map_layer; eauto using R_refl, R_trans, R_P.
        intros s0 Hs0 off d st Ho Hp. unfold lc_own in Hs0. unfold R. rewrite <- Hs0. apply map_write_frame.
      - intros _. apply frL_bind; [destruct (_ <? _); [apply lc_truncate_fr; exact Hx|apply frL_pure; reflexivity]|intros].
        apply frL_bind; [apply lc_upd_fr|intros]. apply IHfuel. }
    unfold lc_build_fuel.
    do 4 (apply frL_bind; [apply frL_pure; reflexivity|intros]).
    apply frL_lift. intros y Hy. assert (Hx : cfg_path y = p) by (destruct c; [inversion Hy; subst; auto|discriminate]).
    do 3 (apply frL_bind; [apply frL_pure; reflexivity|intros]).
    apply frL_bind; [apply HL; exact Hx|intros].
    apply frL_bind; [apply frL_pure; reflexivity|intros].
    apply frL_bind; [apply lc_upd_fr|intros].
    do 4 (apply frL_bind; [apply frL_pure; reflexivity|intros]).
    apply frL_pure. reflexivity.
  Qed.
End Own.
