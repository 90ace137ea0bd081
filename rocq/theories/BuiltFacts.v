(* What a constructor call leaves behind, for one given store: the store object,
   its representation and the file it lives in. *)
From Coq Require Import String List Arith Bool Lia Init.Byte ZifyBool ZifyNat.
From Verif Require Import Base Element Hash Sizing FS Sched Store VecStore DiskStore MmapStore LevelCache ProofModel Tree ListFacts Spec SpecFacts SizingFacts SchedFacts StoreLaws RowFacts ChunkFacts BuildFacts BuildLoop StoreSpec FileFacts VecFacts DiskFacts MmapFacts PopFacts TreeFacts ProofSpec ProofFacts TreeProofs TreeObs Builders.
Import ListNotations.

(* the constructors that take a StoreConfig *)
Inductive cfg_builder {E} (EO : ElementOps E) (SO : StoreOps E) (A : AlgOps E) (en : env) (b : nat) (c : StoreConfig)
  : list E -> fs -> res (mtree (st_t SO) E) * fs -> Prop :=
| CB_new xs f : cfg_builder EO SO A en b c (map (h_leaf A) xs) f (mt_new_with_config EO SO A en b xs c f)
| CB_par xs f : 0 < p_block (env_params en) ->
    cfg_builder EO SO A en b c (map (h_leaf A) xs) f (from_par_iter_with_config EO SO A en b xs c f)
| CB_data xs f :
    cfg_builder EO SO A en b c (map (fun x => h_leaf A (hash_of A x)) xs) f (from_data_with_config EO SO A en b xs c f)
| CB_bytes els f :
    cfg_builder EO SO A en b c els f (from_byte_slice_with_config EO SO A en b (encode EO els) c f).

Section Built.
  Context {E : Type} (EO : ElementOps E) (EL : ElementLaws EO) (SO : StoreOps E).
  Local Notation T := (st_t SO).
  Variable owner : T -> option nat.
  Variable W : T -> Prop.
  Variable Rep : nat -> nat -> (nat -> option E) -> T * fs -> Prop.
  Variable np : bool.
  Hypothesis SL : StoreLaws EO SO owner W Rep np.
  Variable A : AlgOps E.
  Hypothesis AL : AlgLaws A.
  Variables (en : env) (b : nat).
  Hypothesis Hb : arity b.
  Hypothesis Hch : chunk_ok en b.

  Lemma built_intro f p leaves (r : res (mtree T E) * fs) t f' : r = (Ok t, f') ->
    (forall d, 1 <= d -> List.length leaves = b ^ d -> exists t f', r = (Ok t, f') /\ Built SO owner W Rep A b f p d leaves t f') ->
    ((forall d, 1 <= d -> List.length leaves <> b ^ d) -> exists x f', r = (x, f') /\ failed np x) ->
    exists d, 1 <= d /\ List.length leaves = b ^ d /\ Built SO owner W Rep A b f p d leaves t f'.
  Proof.
    intros Hr H1 H2. destruct (full_dec b Hb (List.length leaves)) as [(d & Hd & Hn)|H].
    - destruct (H1 d Hd Hn) as (t0 & f0 & Hr0 & HB). rewrite Hr in Hr0. inv Hr0. eauto.
    - destruct (H2 H) as (x & f0 & Hx & HF). rewrite Hr in Hx. inv Hx. contradiction.
  Qed.

  Lemma cfg_builder_built c leaves f t f' : fs_dir f (cfg_path c) = None ->
    cfg_builder EO SO A en b c leaves f (Ok t, f') ->
    exists d, 1 <= d /\ List.length leaves = b ^ d /\ Built SO owner W Rep A b f (Some (cfg_path c)) d leaves t f'.
  Proof.
    intros Hp HB. remember (Ok t, f') as r eqn:Hr. destruct HB.
    - apply (built_intro _ _ _ _ _ _ Hr); rewrite map_length; intros.
      + apply (try_from_iter_wc_ok EO SO owner W Rep np SL A AL b Hb en Hch); auto.
      + apply (try_from_iter_wc_bad EO SO owner W Rep np SL A AL b Hb en Hch); auto.
    - apply (built_intro _ _ _ _ _ _ Hr); rewrite map_length; intros.
      + apply (from_par_iter_wc_ok EO SO owner W Rep np SL A AL b Hb en Hch); auto.
      + apply (from_par_iter_wc_bad EO SO owner W Rep np SL A AL b Hb en Hch); auto.
    - apply (built_intro _ _ _ _ _ _ Hr); rewrite map_length; intros.
      + rewrite <- map_map. apply (from_data_wc_ok EO SO owner W Rep np SL A AL b Hb en Hch); auto.
      + unfold from_data_with_config. rewrite (hash_items_ok A AL). rewrite <- (map_length (hash_of A) xs) in *.
        apply (try_from_iter_wc_bad EO SO owner W Rep np SL A AL b Hb en Hch); auto.
    - apply (built_intro _ _ _ _ _ _ Hr); intros.
      + apply (from_byte_slice_wc_ok EO EL SO owner W Rep np SL A b Hb en Hch); auto.
      + apply (from_byte_slice_wc_bad EO EL SO owner W Rep np SL A b Hb en Hch); auto.
  Qed.

  Lemma builder_built leaves f t f' : builder EO SO A en b leaves f (Ok t, f') ->
    exists d p, 1 <= d /\ List.length leaves = b ^ d /\ Built SO owner W Rep A b f p d leaves t f'.
  Proof.
    intros HB. remember (Ok t, f') as r eqn:Hr.
    assert (C : forall p, (exists d, 1 <= d /\ List.length leaves = b ^ d /\ Built SO owner W Rep A b f p d leaves t f') ->
      exists d p, 1 <= d /\ List.length leaves = b ^ d /\ Built SO owner W Rep A b f p d leaves t f') by (intros p (d & H); exists d, p; exact H).
    destruct HB.
    - apply (C None). apply (built_intro _ _ _ _ _ _ Hr); rewrite map_length; intros.
      + apply (try_from_iter_ok EO SO owner W Rep np SL A AL b Hb en Hch); auto.
      + apply (try_from_iter_bad EO SO owner W Rep np SL A AL b Hb en Hch); auto.
    - apply (C (Some (cfg_path c))). apply cfg_builder_built; auto. rewrite <- Hr. constructor.
    - apply (C None). apply (built_intro _ _ _ _ _ _ Hr); rewrite map_length; intros.
      + apply (from_par_iter_ok EO SO owner W Rep np SL A AL b Hb en Hch); auto.
      + apply (from_par_iter_bad EO SO owner W Rep np SL A AL b Hb en Hch); auto.
    - apply (C (Some (cfg_path c))). apply cfg_builder_built; auto. rewrite <- Hr. constructor; auto.
    - apply (C None). apply (built_intro _ _ _ _ _ _ Hr); rewrite map_length; intros.
      + rewrite <- map_map. apply (from_data_ok EO SO owner W Rep np SL A AL b Hb en Hch); auto.
      + unfold from_data. rewrite (hash_items_ok A AL). rewrite <- (map_length (hash_of A) xs) in *.
        apply (try_from_iter_bad EO SO owner W Rep np SL A AL b Hb en Hch); auto.
    - apply (C (Some (cfg_path c))). apply cfg_builder_built; auto. rewrite <- Hr. constructor.
    - apply (C None). apply (built_intro _ _ _ _ _ _ Hr); intros.
      + apply (from_byte_slice_ok EO EL SO owner W Rep np SL A b Hb en Hch); auto.
      + apply (from_byte_slice_bad EO EL SO owner W Rep np SL A b Hb en Hch); auto.
    - apply (C (Some (cfg_path c))). apply cfg_builder_built; auto. rewrite <- Hr. constructor.
  Qed.

  (* the built tree with everything known about it *)
  Lemma built_at f p d leaves t f' : Built SO owner W Rep A b f p d leaves t f' ->
    exists s els, TreeAt SO Rep A b t s f' d leaves els /\ W s /\ Rep (geom b d) (geom b d) (nth_error els) (s, f') /\
      Created f f' p (owner s).
  Proof. intros (s & H1 & (H2 & H3) & H4). eauto 8. Qed.
End Built.
