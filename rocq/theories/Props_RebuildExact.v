(* C57, sharpened: what from_store_configs over DiskStore does for every state of the files *)
From Coq Require Import String List Arith NArith Bool Lia Init.Byte ZifyBool ZifyNat.
From Verif Require Import Base Element Hash Sizing FS Sched Store VecStore DiskStore MmapStore LevelCache ProofModel Tree ListFacts Spec SpecFacts SizingFacts SchedFacts StoreLaws RowFacts ChunkFacts BuildFacts BuildLoop StoreSpec FileFacts VecFacts MapLayer DiskFacts MmapFacts PopFacts TreeFacts ProofSpec ProofFacts TreeProofs TreeObs Builders BuiltFacts CompoundFacts CompoundTrees CompoundGroups CompoundBuilt CompactTrees ReopenFacts ReplicaFacts RebuildFacts StopFacts Cases Props_Build Props_Compound Props_Reopen.
Import ListNotations.

Section RebuildExact.
  Context {E : Type} (EO : ElementOps E) (EL : ElementLaws EO) (A : AlgOps E).
  Variables (b : nat).
  Hypothesis Hb : arity b.
  Local Notation DO := (disk_store EO).
  Local Notation bl := (e_byte_len EO).

  Local Notation step d := (fun c => sbind (slift (get_merkle_tree_len (b ^ d) b)) (fun size =>
    sbind (st_new_with_config DO size b c) (fun data => from_data_store DO b 0 0 data (b ^ d)))).

  Lemma step_open f c d s r f1 : 1 <= d -> st_new_with_config DO (geom b d) b c f = (Ok s, f1) ->
    from_data_store DO b 0 0 s (b ^ d) f1 = r -> step d c f = r.
  Proof.
    intros Hd H1 H2. cbv beta. rewrite get_merkle_tree_len_full by auto. rewrite (sbind_ok _ _ f (geom b d) f) by reflexivity.
    rewrite (sbind_ok _ _ _ _ _ H1). exact H2.
  Qed.

  Lemma data_store_wrong f (s : st_t DO) d : 1 <= d -> st_len DO s <> geom b d -> exists e, from_data_store DO b 0 0 s (b ^ d) f = (Err e, f).
  Proof.
    intros Hd Hn. unfold from_data_store. cbn [Nat.eqb ensure].
    rewrite (sbind_ok _ _ f tt f) by reflexivity. rewrite (sbind_ok _ _ f tt f) by reflexivity.
    replace (next_pow2 (b ^ d) =? b ^ d) with true by (symmetry; apply next_pow2_eqb, pow2_pow, arity_pow2; auto).
    rewrite (arity_next b Hb), Nat.eqb_refl. cbn [ensure].
    rewrite (sbind_ok _ _ f tt f) by reflexivity. rewrite (sbind_ok _ _ f tt f) by reflexivity.
    rewrite get_merkle_tree_len_full by auto. rewrite (sbind_ok _ _ f (geom b d) f) by reflexivity.
    match goal with |- context [ensure ?q _] => assert (q = false) as -> by lia end. cbn [ensure].
    eexists. reflexivity.
  Qed.

  (* a file of the right length, whatever it holds *)
  Lemma step_good f c d data : 1 <= d -> fs_file f (cfg_path c) = Some data -> List.length data = geom b d * bl ->
    exists t, step d c f = (Ok t, f) /\ mt_leafs t = b ^ d /\ mt_row_count t = S d /\ mt_len DO t = geom b d /\
      e_from_slice EO (sub data ((geom b d - 1) * bl) bl) = Ok (mt_root t) /\
      forall j, j < geom b d -> mt_read_at DO 0 0 t f j = e_from_slice EO (sub data (j * bl) bl).
  Proof.
    intros Hd Hf Hn. pose proof (geom_pos b d) as Hg. pose proof (bl_pos EO EL) as Hbl.
    pose proof (file_inv _ _ _ Hf) as (i & Hi & Hdt). subst data.
    destruct (disk_open EO b f c i (geom b d) Hi) as [O1 _]. destruct (O1 Hn) as (s & H1 & H2 & H3 & H4 & H5).
    rewrite <- (disk_newc_existing EO b f c i (geom b d) Hi) in H1.
    destruct (el_total EO EL (sub (fs_data f i) ((geom b d - 1) * bl) bl)) as [root Hroot].
    { rewrite sub_length, Hn. pose proof (Nat.mul_sub_distr_r (geom b d) 1 bl) as M. pose proof (Nat.mul_le_mono_r 1 (geom b d) bl ltac:(lia)). lia. }
    assert (Hlt : geom b d - 1 < geom b d) by lia.
    assert (Hread : forall j, j < geom b d -> disk_read_at EO (s, f) j = e_from_slice EO (sub (fs_data f i) (j * bl) bl)).
    { intros j Hj. rewrite <- H5. apply (disk_read_any EO EL s f j (geom b d)); auto. rewrite H5. exact Hn. }
    assert (Hlast : sreads (store_last DO s) f = (Ok root, f)).
    { unfold sreads, store_last. change (st_len DO s) with (ds_len s). rewrite H3.
      rewrite checked_sub_ok by lia. cbn [rbind]. f_equal. rewrite <- Hroot. exact (Hread _ Hlt). }
    exists (mk_base DO s (b ^ d) (geom b d) (get_merkle_tree_row_count (b ^ d) b) root). split.
    - apply (step_open f c d s _ f Hd H1). unfold from_data_store. cbn [Nat.eqb ensure].
      rewrite (sbind_ok _ _ f tt f) by reflexivity. rewrite (sbind_ok _ _ f tt f) by reflexivity.
      replace (next_pow2 (b ^ d) =? b ^ d) with true by (symmetry; apply next_pow2_eqb, pow2_pow, arity_pow2; auto).
      rewrite (arity_next b Hb), Nat.eqb_refl. cbn [ensure].
      rewrite (sbind_ok _ _ f tt f) by reflexivity. rewrite (sbind_ok _ _ f tt f) by reflexivity.
      rewrite get_merkle_tree_len_full by auto. rewrite (sbind_ok _ _ f (geom b d) f) by reflexivity.
      change (st_len DO s) with (ds_len s). rewrite H3, Nat.eqb_refl. cbn [ensure]. rewrite (sbind_ok _ _ f tt f) by reflexivity.
      rewrite size_valid_full by auto. rewrite (sbind_ok _ _ f true f) by reflexivity. cbn [ensure].
      rewrite (sbind_ok _ _ f tt f) by reflexivity. rewrite (sbind_ok _ _ _ _ _ Hlast). reflexivity.
    - split; [reflexivity|]. split; [cbn [mt_row_count mk_base]; apply row_count_full; auto|].
      split; [cbn; exact H3|]. split; [exact Hroot|]. intros j Hj. exact (Hread j Hj).
  Qed.

  (* a file of another length *)
  Lemma step_wrong f c d data : 1 <= d -> fs_file f (cfg_path c) = Some data -> List.length data <> geom b d * bl ->
    exists e, step d c f = (Err e, f).
  Proof.
    intros Hd Hf Hn. pose proof (file_inv _ _ _ Hf) as (i & Hi & Hdt). subst data.
    destruct (disk_open EO b f c i (geom b d) Hi) as [_ O2]. destruct (O2 Hn) as (e & H1).
    rewrite <- (disk_newc_existing EO b f c i (geom b d) Hi) in H1.
    exists e. cbv beta. rewrite get_merkle_tree_len_full by auto. rewrite (sbind_ok _ _ f (geom b d) f) by reflexivity.
    change (st_new_with_config DO) with (disk_new_with_config EO). unfold sbind. rewrite H1. reflexivity.
  Qed.

  (* no file *)
  Lemma step_free f c d : 1 <= d -> fs_wf f -> fs_file f (cfg_path c) = None ->
    exists e f1, step d c f = (Err e, f1) /\ fs_wf f1 /\ fs_file f1 (cfg_path c) = Some (repeat x00 (geom b d * bl)) /\
      forall p, p <> cfg_path c -> fs_file f1 p = fs_file f p.
  Proof.
    intros Hd Hw Hf. pose proof (geom_pos b d) as Hg.
    assert (Hp : fs_dir f (cfg_path c) = None) by (unfold fs_file in Hf; destruct (fs_dir f (cfg_path c)); [discriminate|reflexivity]).
    destruct (create_new_len f (cfg_path c) (bl * geom b d) Hp) as (h & f0 & f1 & H1 & H2 & HW & HD & HC & Hdir).
    set (s := {| ds_len := 0; ds_file := h; ds_loaded := false; ds_size := bl * geom b d |}).
    assert (Hs : st_new_with_config DO (geom b d) b c f = (Ok s, f1)).
    { cbn [st_new_with_config disk_store]. unfold disk_new_with_config. rewrite (sbind_ok _ _ f f f) by reflexivity.
      unfold fs_exists. rewrite Hp. rewrite (sbind_ok _ _ _ _ _ H1), (sbind_ok _ _ _ _ _ H2). reflexivity. }
    destruct (data_store_wrong f1 s d Hd) as [e He]; [cbn; lia|].
    exists e, f1. split; [exact (step_open f c d s _ f1 Hd Hs He)|]. split; [exact (Created_wf _ _ _ _ Hw HC)|].
    split; [unfold fs_file; rewrite Hdir, HD, Nat.mul_comm; reflexivity|].
    intros p Hne. destruct HC as (C1 & C2 & C3 & C4 & C5 & C6). unfold fs_file. rewrite C4 by congruence.
    destruct (fs_dir f p) as [i|] eqn:Hi; [|reflexivity]. unfold fs_data. rewrite C2; [reflexivity|]. exact (Hw _ _ Hi).
  Qed.

  Definition right_file (d : nat) (f : fs) (c : StoreConfig) : Prop :=
    exists data, fs_file f (cfg_path c) = Some data /\ List.length data = geom b d * bl.

  Lemma smap_app_ok {St X Y} (g : X -> SM St Y) l1 l2 st ys st1 : smap g l1 st = (Ok ys, st1) ->
    smap g (l1 ++ l2) st = sbind (smap g l2) (fun zs => sret (ys ++ zs)) st1.
  Proof.
    revert st ys. induction l1 as [|x l1 IH]; intros st ys H; cbn [app smap] in *.
    - injection H as <- <-. unfold sbind, sret. destruct (smap g l2 st) as [[r|m|m|] st2]; reflexivity.
    - apply sbind_inv in H. destruct H as (y & s1 & G1 & H). apply sbind_inv in H. destruct H as (r & s2 & G2 & G3).
      injection G3 as <- <-. rewrite (sbind_ok _ _ _ _ _ G1). pose proof (IH _ _ G2) as Q. unfold sbind in Q |- *. rewrite Q.
      unfold sret. destruct (smap g l2 s2) as [[r2|m|m|] st2]; reflexivity.
  Qed.

  Lemma smap_stop {St X Y} (g : X -> SM St Y) l1 x l2 st ys st1 e st2 : smap g l1 st = (Ok ys, st1) -> g x st1 = (Err e, st2) ->
    smap g (l1 ++ x :: l2) st = (Err e, st2).
  Proof.
    intros H1 H2. rewrite (smap_app_ok g l1 (x :: l2) st ys st1 H1). cbn [smap]. unfold sbind. rewrite H2. reflexivity.
  Qed.

  Lemma smap_good f d l : 1 <= d -> Forall (right_file d f) l -> exists ts, smap (step d) l f = (Ok ts, f) /\
    Forall2 (fun c t => mt_leafs t = b ^ d /\ mt_row_count t = S d /\ mt_len DO t = geom b d /\
      exists data, fs_file f (cfg_path c) = Some data /\ e_from_slice EO (sub data ((geom b d - 1) * bl) bl) = Ok (mt_root t) /\
      forall j, j < geom b d -> mt_read_at DO 0 0 t f j = e_from_slice EO (sub data (j * bl) bl)) l ts.
  Proof.
    intros Hd H. induction H as [|c l (data & D1 & D2) H IH].
    - exists []. split; [reflexivity|constructor].
    - destruct IH as (ts & T1 & T2). destruct (step_good f c d data Hd D1 D2) as (t & S1 & S2 & S3 & S4 & S5 & S6).
      exists (t :: ts). split; [|constructor; eauto 10]. cbn [smap].
      etransitivity; [exact (sbind_ok _ _ _ _ _ S1)|]. rewrite (sbind_ok _ _ _ _ _ T1). reflexivity.
  Qed.
End RebuildExact.

(* The outcome is decided by the lengths of the files alone.  All files of the length of the tree:
   the call succeeds, whatever they hold, and the root is the hash of what their last elements
   decode to.  Otherwise the first file that is not of that length decides: a file of another
   length is an error that changes nothing; a missing file is an error that leaves behind a file
   of zeros of the right length and nothing else. *)
Theorem C57_exact : forall E (EO : ElementOps E) A np en b d f,
  setting EO A (disk_store EO) np en b -> 1 <= d -> fs_wf f ->
  let call configs := from_store_configs (disk_store EO) A b (List.length configs) (b ^ d) configs f in
  let right c := exists data, fs_file f (cfg_path c) = Some data /\ List.length data = geom b d * e_byte_len EO in
  (forall configs, configs <> [] -> Forall right configs ->
     exists t roots, call configs = (Ok t, f) /\ mt_root t = h_node A 1 roots /\ mt_leafs t = List.length configs * b ^ d /\
       Forall2 (fun c r => exists data, fs_file f (cfg_path c) = Some data /\
          e_from_slice EO (sub data ((geom b d - 1) * e_byte_len EO) (e_byte_len EO)) = Ok r) configs roots) /\
  (forall good c rest, Forall right good ->
     (forall data, fs_file f (cfg_path c) = Some data -> List.length data <> geom b d * e_byte_len EO ->
        exists e, call (good ++ c :: rest) = (Err e, f)) /\
     (fs_file f (cfg_path c) = None ->
        exists e f1, call (good ++ c :: rest) = (Err e, f1) /\ fs_wf f1 /\
          fs_file f1 (cfg_path c) = Some (repeat x00 (geom b d * e_byte_len EO)) /\
          forall p, p <> cfg_path c -> fs_file f1 p = fs_file f p)).
Proof.
  intros E EO A np en b d f (EL & AL & HS & Hb & Hch) Hd Hw call right. split.
  - intros configs Hne H. destruct (smap_good EO EL b Hb f d configs Hd H) as (ts & T1 & T2).
    pose proof (Forall2_length _ _ _ T2) as HL.
    assert (HA : Forall (fun t : mtree disk_t E => mt_row_count t = S d) ts /\ Forall (fun t => mt_len (disk_store EO) t = geom b d) ts /\ Forall (fun t : mtree disk_t E => mt_leafs t = b ^ d) ts).
    { clear - T2. induction T2 as [|c t l ts (Q1 & Q2 & Q3 & _) T2 (I1 & I2 & I3)]; repeat split; constructor; auto. }
    destruct HA as (A1 & A2 & A3).
    pose proof (from_trees_ok (disk_store EO) A (List.length configs) ts (S d) (geom b d) (b ^ d)) as HT.
    exists (mk_tree (SubTree ts) (List.length configs * b ^ d) (geom b d * List.length configs + 1) (S d + 1) (h_node A 1 (map mt_root ts))), (map mt_root ts).
    split; [|split; [reflexivity|split; [reflexivity|]]].
    + unfold call, from_store_configs. etransitivity; [exact (sbind_ok _ _ _ _ _ T1)|]. unfold slift. f_equal. apply HT; auto.
      destruct configs; [congruence|cbn; lia].
    + clear - T2. induction T2 as [|c t l ts (_ & _ & _ & data & Q1 & Q2 & _) T2 IH]; constructor; eauto.
  - intros good c rest HG. destruct (smap_good EO EL b Hb f d good Hd HG) as (ts & T1 & _). split.
    + intros data H1 H2. destruct (step_wrong EO b Hb f c d data Hd H1 H2) as (e & He). exists e. unfold call, from_store_configs.
      pose proof (smap_stop _ good c rest f ts f e f T1 He) as Q. unfold sbind at 1. rewrite Q. reflexivity.
    + intros H1. destruct (step_free EO b Hb f c d Hd Hw H1) as (e & f1 & He & W1 & W2 & W3). exists e, f1. split; [|auto]. unfold call, from_store_configs.
      pose proof (smap_stop _ good c rest f ts f e f1 T1 He) as Q. unfold sbind at 1. rewrite Q. reflexivity.
Qed.

(* Hence repeating the call fills in the missing files one by one, and the call after the last of
   them succeeds: with k missing files the first k calls fail and call k + 1 returns a tree. *)
Fixpoint calls {St X} (k : nat) (m : SM St X) (st : St) : list (res X) * St :=
  match k with
  | 0 => ([], st)
  | S k => let '(r, st1) := m st in let '(rs, st2) := calls k m st1 in (r :: rs, st2)
  end.
Definition is_err {X} (r : res X) : Prop := exists e, r = Err e.
Definition missing (f : fs) (configs : list StoreConfig) : list string :=
  filter (fun p => match fs_file f p with None => true | Some _ => false end) (map cfg_path configs).

Theorem C57_repeat : forall E (EO : ElementOps E) A np en b d configs f,
  setting EO A (disk_store EO) np en b -> 1 <= d -> fs_wf f ->
  configs <> [] -> NoDup (map cfg_path configs) ->
  Forall (fun c => forall data, fs_file f (cfg_path c) = Some data -> List.length data = geom b d * e_byte_len EO) configs ->
  let call := from_store_configs (disk_store EO) A b (List.length configs) (b ^ d) configs in
  exists errs f1 t, calls (List.length (missing f configs)) call f = (errs, f1) /\ Forall is_err errs /\
    call f1 = (Ok t, f1) /\
    (forall p, In p (missing f configs) -> fs_file f1 p = Some (repeat x00 (geom b d * e_byte_len EO))) /\
    (forall p, ~ In p (missing f configs) -> fs_file f1 p = fs_file f p).
Proof.
  intros E EO A np en b d configs f HSet Hd Hw Hne HN HF call.
  remember (List.length (missing f configs)) as k eqn:Hk. revert f Hw HF Hk. induction k as [|k IH]; intros f Hw HF Hk.
  - assert (HR : Forall (fun c => exists data, fs_file f (cfg_path c) = Some data /\ List.length data = geom b d * e_byte_len EO) configs).
    { symmetry in Hk. apply length_zero_iff_nil in Hk. apply Forall_forall. intros c Hc. rewrite Forall_forall in HF. specialize (HF c Hc).
      destruct (fs_file f (cfg_path c)) as [data|] eqn:Hf; [eauto|]. exfalso.
      assert (Hin : In (cfg_path c) (missing f configs)) by (apply filter_In; split; [apply in_map; exact Hc|rewrite Hf; reflexivity]).
      rewrite Hk in Hin. exact Hin. }
    destruct (proj1 (C57_exact E EO A np en b d f HSet Hd Hw) configs Hne HR) as (t & roots & H1 & _).
    exists [], f, t. split; [reflexivity|]. split; [constructor|]. split; [exact H1|]. split; [|reflexivity].
    intros p Hp. symmetry in Hk. apply length_zero_iff_nil in Hk. rewrite Hk in Hp. destruct Hp.
  - assert (HS : exists good c rest, configs = good ++ c :: rest /\ fs_file f (cfg_path c) = None /\
       Forall (fun c => exists data, fs_file f (cfg_path c) = Some data /\ List.length data = geom b d * e_byte_len EO) good).
    { clear - Hk HF. induction configs as [|c l IH]; [discriminate Hk|]. inversion HF as [|? ? F1 F2]; subst.
      unfold missing in Hk. cbn [map filter] in Hk. destruct (fs_file f (cfg_path c)) as [data|] eqn:Hf.
      - destruct (IH F2 Hk) as (good & c' & rest & -> & G2 & G3). exists (c :: good), c', rest. split; [reflexivity|]. split; [exact G2|]. constructor; eauto.
      - exists [], c, l. auto. }
    destruct HS as (good & c & rest & Hcs & Hc & HG).
    destruct (proj2 (proj2 (C57_exact E EO A np en b d f HSet Hd Hw) good c rest HG) Hc) as (e & f1 & H1 & W1 & W2 & W3).
    rewrite <- Hcs in H1. fold call in H1.
    assert (HM : forall p, In p (missing f configs) <-> p = cfg_path c \/ In p (missing f1 configs)).
    { intros p. unfold missing. rewrite !filter_In. destruct (String.eqb_spec p (cfg_path c)) as [->|Hp].
      - rewrite Hc, W2. split; [auto|]. intros _. split; [|reflexivity]. rewrite Hcs. apply in_map, in_or_app. right. left. reflexivity.
      - rewrite (W3 p Hp). split; [auto|]. intros [Q|Q]; [congruence|exact Q]. }
    assert (Hni : ~ In (cfg_path c) (missing f1 configs)).
    { unfold missing. rewrite filter_In, W2. intros [_ Q]. discriminate Q. }
    assert (Hk1 : k = List.length (missing f1 configs)).
    { assert (N1 : NoDup (missing f configs)) by (apply NoDup_filter; exact HN).
      assert (N2 : NoDup (cfg_path c :: missing f1 configs)) by (constructor; [exact Hni|apply NoDup_filter; exact HN]).
      assert (L1 : List.length (missing f configs) <= List.length (cfg_path c :: missing f1 configs)).
      { apply NoDup_incl_length; [exact N1|]. intros p Hp. apply HM in Hp. destruct Hp as [->|Hp]; [left; reflexivity|right; exact Hp]. }
      assert (L2 : List.length (cfg_path c :: missing f1 configs) <= List.length (missing f configs)).
      { apply NoDup_incl_length; [exact N2|]. intros p [<-|Hp]; apply HM; auto. }
      cbn [List.length] in L1, L2. lia. }
    assert (HF1 : Forall (fun c => forall data, fs_file f1 (cfg_path c) = Some data -> List.length data = geom b d * e_byte_len EO) configs).
    { apply Forall_forall. intros c' Hc' data Hdt. destruct (String.eqb_spec (cfg_path c') (cfg_path c)) as [Q|Q].
      - rewrite Q, W2 in Hdt. assert (data = repeat x00 (geom b d * e_byte_len EO)) as -> by congruence. apply repeat_length.
      - rewrite (W3 _ Q) in Hdt. rewrite Forall_forall in HF. exact (HF c' Hc' data Hdt). }
    destruct (IH f1 W1 HF1 Hk1) as (errs & f2 & t & C1 & C2 & C3 & C4 & C5).
    exists (Err e :: errs), f2, t. split; [cbn [calls]; rewrite H1, C1; reflexivity|]. split; [constructor; [exists e; reflexivity|exact C2]|].
    split; [exact C3|]. split.
    + intros p Hp. apply HM in Hp. destruct Hp as [->|Hp]; [|exact (C4 p Hp)]. rewrite (C5 _ Hni). exact W2.
    + intros p Hp. rewrite C5 by (intros Q; apply Hp, HM; auto). apply W3. intros Q. apply Hp, HM. auto.
Qed.

(* worked: the file of the second of three base trees is missing; the first call fails, the second
   one returns a tree whose second sub-tree has a zero root *)
Definition rbx_cfg (k : nat) : StoreConfig := {| sc_path := "/d"; sc_id := String (Ascii.ascii_of_nat (97 + k)) EmptyString; sc_size := None; sc_rows_to_discard := 0 |}.
Definition rbx_build (ks : list nat) (f : fs) : option fs :=
  fold_left (fun o k => match o with
    | Some f => match mt_new_with_config BO (disk_store BO) sum_alg env1 2 (xs4 (1 + k)) (rbx_cfg k) f with (Ok _, f1) => Some f1 | _ => None end
    | None => None end) ks (Some f).
Definition rbx_case : option (nat * list bool * option (nat * list nat)) :=
  match rbx_build [0; 2] fs_empty with
  | Some f =>
      let cs := map rbx_cfg [0; 1; 2] in
      let call := from_store_configs (disk_store BO) sum_alg 2 3 4 cs in
      let '(errs, f1) := calls (List.length (missing f cs)) call f in
      Some (List.length (missing f cs), map (fun r => match r with Err _ => true | _ => false end) errs,
            match call f1 with
            | (Ok t, _) => Some (val (mt_root t), match mt_data t with SubTree l => map (fun t => val (mt_root t)) l | _ => [] end)
            | _ => None end)
  | None => None
  end.
Example C57_exact_case : exists r0 r2 r, rbx_case = Some (1, [true], Some (r, [r0; 0; r2])) /\ 0 < r0 /\ 0 < r2 /\
  r = val (h_node sum_alg 1 [el r0; el 0; el r2]).
Proof. eexists _, _, _. split; [vm_compute; reflexivity|]. split; [lia|]. split; [lia|]. vm_compute. reflexivity. Qed.

Print Assumptions C57_exact.
Print Assumptions C57_repeat.
