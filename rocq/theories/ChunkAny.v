(* Construction with an arity that does not divide the chunk size (BUILD_CHUNK_NODES):
   compared with the same construction under a chunk size equal to the arity. *)
From Coq Require Import String List Arith NArith Bool Lia Init.Byte ZifyBool ZifyNat.
From Verif Require Import Base Element Hash Sizing FS Sched Store VecStore DiskStore MmapStore LevelCache ProofModel Tree ListFacts Spec SpecFacts SizingFacts StoreLaws StoreSpec PopFacts TreeFacts TreeObs Builders BuiltFacts.
Import ListNotations.

Definition with_chunk (en : env) (n : nat) : env := {|
  env_params := {| p_small := p_small (env_params en); p_chunk := n; p_block := p_block (env_params en) |};
  env_sched := env_sched en; env_bytes := env_bytes en; env_pop := env_pop en; env_copy := env_copy en |}.

(* the same outcome, or an error *)
Definition or_err {St X} (m m' : SM St X) : Prop := forall st, m st = m' st \/ exists e, fst (m st) = Err e.
Definition never {St X} (m : SM St X) : Prop := forall st x st', m st <> (Ok x, st').

Section Rel.
  Context {St X Y : Type}.
  Lemma or_err_refl (m : SM St X) : or_err m m.
  Proof. intros st. left. reflexivity. Qed.
  Lemma or_err_bind (m m' : SM St X) (k k' : X -> SM St Y) : or_err m m' -> (forall x, or_err (k x) (k' x)) -> or_err (sbind m k) (sbind m' k').
  Proof.
    intros H1 H2 st. unfold sbind. destruct (H1 st) as [H|[e H]].
    - rewrite <- H. destruct (m st) as [[x|e|e|] st1]; [apply H2|left; reflexivity|left; reflexivity|left; reflexivity].
    - right. exists e. destruct (m st) as [r st1]. cbn [fst] in H. subst r. reflexivity.
  Qed.
  Lemma or_err_same (m : SM St X) (k k' : X -> SM St Y) : (forall x, or_err (k x) (k' x)) -> or_err (sbind m k) (sbind m k').
  Proof. intros H. apply or_err_bind; [apply or_err_refl|exact H]. Qed.
  Lemma never_bind (m : SM St X) (k : X -> SM St Y) : never m -> never (sbind m k).
  Proof.
    intros H st x st'. unfold sbind. destruct (m st) as [[y|e|e|] st1] eqn:G; try discriminate. exfalso. exact (H _ _ _ G).
  Qed.
  Lemma never_after (m : SM St X) (k : X -> SM St Y) : (forall x, never (k x)) -> never (sbind m k).
  Proof. intros H st x st'. unfold sbind. destruct (m st) as [[y|e|e|] st1]; try discriminate. apply H. Qed.
End Rel.

Lemma with_store_or_err {T X} (s : T) (m m' : SM (T * fs) X) : or_err m m' -> or_err (with_store s m) (with_store s m').
Proof.
  intros H f. unfold with_store. destruct (H (s, f)) as [->|[e He]]; [left; reflexivity|]. right. exists e.
  destruct (m (s, f)) as [r [s1 f1]]. cbn [fst] in He. subst r. reflexivity.
Qed.
Lemma with_store_never {T X} (s : T) (m : SM (T * fs) X) : never m -> never (with_store s m).
Proof.
  intros H f x f'. unfold with_store. destruct (m (s, f)) as [[y|e|e|] [s1 f1]] eqn:G; try discriminate. exfalso. exact (H _ _ _ G).
Qed.

Section Builds.
  Context {E : Type} (EO : ElementOps E) (A : AlgOps E) (en : env) (b : nat).
  Hypothesis Hno : p_chunk (env_params en) mod b <> 0.
  Local Notation en' := (with_chunk en b).

  Lemma no_chunk : (p_chunk (env_params en) mod b =? 0) = false.
  Proof. apply Nat.eqb_neq. exact Hno. Qed.

  Lemma mmap_layer_err {T} (file : T -> handle) rr chunk' sched w l rs ws :
    or_err (mmap_process_layer EO A b (p_chunk (env_params en)) file rr sched w l rs ws) (mmap_process_layer EO A b chunk' file rr sched w l rs ws).
  Proof.
    unfold mmap_process_layer, mmap_layer_by. apply or_err_same. intros st0. apply or_err_same. intros _ st. right.
    rewrite no_chunk. eexists. reflexivity.
  Qed.
  Lemma mmap_layer_never {T} (file : T -> handle) rr sched w l rs ws :
    never (mmap_process_layer EO A b (p_chunk (env_params en)) file rr sched w l rs ws).
  Proof.
    unfold mmap_process_layer, mmap_layer_by. apply never_after. intros st0. apply never_after. intros _. rewrite no_chunk. apply never_bind. intros st x st'. discriminate.
  Qed.
  Lemma layer_err {T} rr (cp : list byte -> nat -> SM (T * fs) unit) sched w l rs ws st :
    process_layer EO rr cp A b (p_chunk (env_params en)) sched w l rs ws st = (Err "Invalid chunk size"%string, st).
  Proof. unfold process_layer. rewrite no_chunk. reflexivity. Qed.

  (* DiskStore *)
  Lemma disk_loop_err fuel shift level w lni : or_err (disk_build_loop EO en A b fuel shift level w lni) (disk_build_loop EO en' A b fuel shift level w lni).
  Proof.
    revert level w lni. induction fuel as [|fuel IH]; intros; [apply or_err_refl|]. cbn [disk_build_loop]. destruct (1 <? w); [|apply or_err_refl].
    apply or_err_same. intros [rs ws]. apply or_err_bind; [apply mmap_layer_err|]. intros _. cbv zeta. apply or_err_same. intros st. apply or_err_same. intros _. apply IH.
  Qed.
  Lemma disk_loop_never fuel shift level w lni : 1 < w -> never (disk_build_loop EO en A b fuel shift level w lni).
  Proof.
    intros Hw. destruct fuel; [intros st x st'; discriminate|]. cbn [disk_build_loop]. apply Nat.ltb_lt in Hw. rewrite Hw.
    apply never_after. intros [rs ws]. apply never_bind. apply mmap_layer_never.
  Qed.
  Lemma disk_build_err leafs rc c : or_err (st_build (disk_store EO) en A b leafs rc c) (st_build (disk_store EO) en' A b leafs rc c).
  Proof.
    change (or_err (disk_build_fuel EO en A b (S leafs) leafs rc c) (disk_build_fuel EO en' A b (S leafs) leafs rc c)).
    unfold disk_build_fuel. repeat (apply or_err_same; intros). apply or_err_bind; [apply disk_loop_err|]. intros. apply or_err_refl.
  Qed.
  Lemma disk_build_never leafs rc c : 1 < leafs -> never (st_build (disk_store EO) en A b leafs rc c).
  Proof.
    intros H. change (never (disk_build_fuel EO en A b (S leafs) leafs rc c)).
    unfold disk_build_fuel. do 4 (apply never_after; intros). apply never_bind. apply disk_loop_never. exact H.
  Qed.

  (* LevelCacheStore *)
  Lemma lc_build_never leafs rc c : 1 < leafs -> never (st_build (lc_store EO) en A b leafs rc c).
  Proof.
    intros H. change (never (lc_build_fuel EO en A b (S leafs) leafs rc c)).
    unfold lc_build_fuel. do 8 (apply never_after; intros). apply never_bind. cbn [lc_build_loop]. apply Nat.ltb_lt in H. rewrite H.
    apply never_after. intros st. cbn [Nat.eqb]. apply never_bind. apply mmap_layer_never.
  Qed.
  Lemma lc_loop_err fuel shift cis c level w lni :
    or_err (lc_build_loop EO en A b fuel shift cis c level w lni) (lc_build_loop EO en' A b fuel shift cis c level w lni).
  Proof.
    revert level w lni. induction fuel as [|fuel IH]; intros; [apply or_err_refl|]. cbn [lc_build_loop]. destruct (1 <? w); [|apply or_err_refl].
    apply or_err_same. intros st. match goal with |- context [let '(_, _) := ?p in _] => destruct p as [rs ws] end.
    apply or_err_bind; [apply mmap_layer_err|]. intros _. apply or_err_same. intros _. apply or_err_same. intros _. apply IH.
  Qed.
  Lemma lc_build_err leafs rc c : or_err (st_build (lc_store EO) en A b leafs rc c) (st_build (lc_store EO) en' A b leafs rc c).
  Proof.
    change (or_err (lc_build_fuel EO en A b (S leafs) leafs rc c) (lc_build_fuel EO en' A b (S leafs) leafs rc c)).
    unfold lc_build_fuel. do 8 (apply or_err_same; intros). apply or_err_bind; [apply lc_loop_err|]. intros. apply or_err_refl.
  Qed.

  (* the default build: VecStore and MmapStore *)
  Section Default.
    Context {T : Type} (len : T -> nat) (ra : T * fs -> nat -> res E) (rr : T * fs -> nat -> nat -> res (list E)) (wa : E -> nat -> SM (T * fs) unit)
      (cp : list byte -> nat -> SM (T * fs) unit).
    Local Notation dbuild e := (fun leafs rc => default_build_fuel EO len ra rr wa cp A b (p_chunk (env_params e)) (S leafs) (p_small (env_params e)) (env_sched e) leafs rc).
    Lemma loop_err fuel shift level w lni st : 1 < w ->
      exists e, fst (build_loop EO len rr cp A b (p_chunk (env_params en)) (env_sched en) (S fuel) shift level w lni st) = Err e.
    Proof.
      intros Hw. cbn [build_loop]. apply Nat.ltb_lt in Hw. rewrite Hw. unfold level_bounds, sbind. cbn [sget]. destruct (level =? 0); cbn [sret];
        rewrite layer_err; eexists; reflexivity.
    Qed.
    Lemma default_err leafs rc : or_err (dbuild en leafs rc) (dbuild en' leafs rc).
    Proof.
      unfold default_build_fuel. cbn [env_params with_chunk p_chunk p_small env_sched]. do 3 (apply or_err_same; intros).
      destruct (leafs mod 2 =? 0) eqn:Hm; [|intros st; left; reflexivity]. apply or_err_same. intros _.
      destruct (leafs <=? p_small (env_params en)) eqn:Hs; [apply or_err_refl|]. intros st. right.
      assert (Hw : 1 < leafs).
      { destruct leafs as [|[|n]]; [discriminate|discriminate|lia]. }
      destruct (loop_err leafs (log2_pow2 b) 0 leafs 0 st Hw) as [e He]. exists e. unfold sbind at 1.
      destruct (build_loop EO len rr cp A b (p_chunk (env_params en)) (env_sched en) (S leafs) (log2_pow2 b) 0 leafs 0 st) as [r st1]. cbn [fst] in He. subst r. reflexivity.
    Qed.
    Lemma default_never leafs rc : p_small (env_params en) < leafs -> 1 < leafs -> never (dbuild en leafs rc).
    Proof.
      intros Hs Hw. unfold default_build_fuel. do 4 (apply never_after; intros). apply Nat.leb_gt in Hs. rewrite Hs. apply never_bind.
      intros st y st' H. destruct (loop_err leafs (log2_pow2 b) 0 leafs 0 st Hw) as [e He]. rewrite H in He. discriminate.
    Qed.
  End Default.

  Lemma basic_build_err SO np leafs rc c : basic_store EO SO np -> or_err (st_build SO en A b leafs rc c) (st_build SO en' A b leafs rc c).
  Proof.
    intros []; [|apply disk_build_err|].
    - exact (default_err (@List.length E) vec_read_at vec_read_range (vec_write_at EO) (vec_copy_from_slice EO) leafs rc).
    - exact (default_err mm_len (mmap_read_at EO) (mmap_read_range EO) (mmap_write_at EO) (mmap_copy_from_slice EO) leafs rc).
  Qed.
  Lemma basic_build_never SO np leafs rc c : basic_store EO SO np -> p_small (env_params en) < leafs -> 1 < leafs ->
    never (st_build SO en A b leafs rc c).
  Proof.
    intros HS Hs Hw. destruct HS; [|apply disk_build_never; exact Hw|].
    - exact (default_never (@List.length E) vec_read_at vec_read_range (vec_write_at EO) (vec_copy_from_slice EO) leafs rc Hs Hw).
    - exact (default_never mm_len (mmap_read_at EO) (mmap_read_range EO) (mmap_write_at EO) (mmap_copy_from_slice EO) leafs rc Hs Hw).
  Qed.
End Builds.

(* constructors *)
Section Ctors.
  Context {E : Type} (EO : ElementOps E) (SO : StoreOps E) (A : AlgOps E) (en : env) (b : nat).
  Local Notation en' := (with_chunk en b).

  Section Same.
    Hypothesis HB : forall leafs rc c, or_err (st_build SO en A b leafs rc c) (st_build SO en' A b leafs rc c).
    Ltac go := repeat (first [apply or_err_same; intros | match goal with |- or_err (let '(_, _) := ?p in _) _ => destruct p end
      | match goal with |- or_err (if ?x then _ else _) _ => destruct x end ]);
      try apply or_err_refl; (apply or_err_bind; [apply with_store_or_err, HB|intros; apply or_err_refl]).
    Lemma iter_err hint items : or_err (try_from_iter EO SO A en b hint items) (try_from_iter EO SO A en' b hint items).
    Proof. unfold try_from_iter. go. Qed.
    Lemma iter_wc_err hint items c : or_err (try_from_iter_with_config EO SO A en b hint items c) (try_from_iter_with_config EO SO A en' b hint items c).
    Proof. unfold try_from_iter_with_config. go. Qed.
    Lemma par_err items : or_err (from_par_iter EO SO A en b items) (from_par_iter EO SO A en' b items).
    Proof. unfold from_par_iter. cbv zeta. go. Qed.
    Lemma par_wc_err items c : or_err (from_par_iter_with_config EO SO A en b items c) (from_par_iter_with_config EO SO A en' b items c).
    Proof. unfold from_par_iter_with_config. cbv zeta. go. Qed.
    Lemma bytes_err data : or_err (from_byte_slice EO SO A en b data) (from_byte_slice EO SO A en' b data).
    Proof. unfold from_byte_slice. cbv zeta. go. Qed.
    Lemma bytes_wc_err data c : or_err (from_byte_slice_with_config EO SO A en b data c) (from_byte_slice_with_config EO SO A en' b data c).
    Proof. unfold from_byte_slice_with_config. cbv zeta. go. Qed.

    Lemma builder_chunk leaves f r : builder EO SO A en b leaves f r ->
      exists r', builder EO SO A en' b leaves f r' /\ (r = r' \/ exists e, fst r = Err e).
    Proof.
      intros [].
      - eexists. split; [apply B_new|apply iter_err].
      - eexists. split; [apply (B_new_config EO SO A en' b xs c); assumption|apply iter_wc_err].
      - eexists. split; [apply B_par; assumption|apply par_err].
      - eexists. split; [apply (B_par_config EO SO A en' b xs c); assumption|apply par_wc_err].
      - eexists. split; [apply B_data|apply iter_err].
      - eexists. split; [apply (B_data_config EO SO A en' b xs c); assumption|apply iter_wc_err].
      - eexists. split; [apply B_bytes|apply bytes_err].
      - eexists. split; [apply (B_bytes_config EO SO A en' b els c); assumption|apply bytes_wc_err].
    Qed.
    Lemma cfg_builder_chunk c leaves f r : cfg_builder EO SO A en b c leaves f r ->
      exists r', cfg_builder EO SO A en' b c leaves f r' /\ (r = r' \/ exists e, fst r = Err e).
    Proof.
      intros [].
      - eexists. split; [apply CB_new|apply iter_wc_err].
      - eexists. split; [apply CB_par; assumption|apply par_wc_err].
      - eexists. split; [apply CB_data|apply iter_wc_err].
      - eexists. split; [apply CB_bytes|apply bytes_wc_err].
    Qed.
  End Same.

  (* leaf counts the checks let through are at least the arity *)
  Section Never.
    Hypothesis Hb : arity b.
    Hypothesis HB : forall leafs rc c, b <= leafs -> never (st_build SO en A b leafs rc c).
    Lemma checks_ge n size rc : leafs_checks b n = Ok (size, rc) -> b <= n.
    Proof.
      intros H. destruct (leafs_checks_cases b Hb n) as [[e He]|(m & q & H1 & H2 & H3 & H4 & _)]; [congruence|]. pose proof (arity_ge b Hb).
      subst n. destruct q; [lia|]. cbn [Nat.pow]. assert (G : b ^ q <> 0) by (apply Nat.pow_nonzero; lia).
      clear H. generalize dependent (b ^ q). intros x Hx. assert (1 <= m * x) by nia. rewrite (Nat.mul_comm b x), Nat.mul_assoc. nia.
    Qed.
    Hypothesis HN : forall size c f s f', fs_dir f (cfg_path c) = None -> st_new_with_config SO size b c f = (Ok s, f') -> st_loaded_from_disk SO s = false.

    Lemma checked n (k : nat * nat -> SM fs (mtree (st_t SO) E)) : (b <= n -> forall x, never (k x)) -> never (sbind (slift (leafs_checks b n)) k).
    Proof.
      intros H f t f'. unfold sbind, slift. destruct (leafs_checks b n) as [[size rc]|e|e|] eqn:G; try discriminate. apply H. eapply checks_ge; eauto.
    Qed.
    Lemma iter_never hint items : never (try_from_iter EO SO A en b hint items).
    Proof.
      unfold try_from_iter. apply never_after. intros leafs. apply checked. intros Hn [size rc]. apply never_after. intros data. apply never_after. intros [_ data'].
      apply never_bind. apply with_store_never. auto.
    Qed.
    Lemma par_never items : never (from_par_iter EO SO A en b items).
    Proof.
      unfold from_par_iter. cbv zeta. apply checked. intros Hn [size rc]. apply never_after. intros data. apply never_after. intros [_ data'].
      apply never_bind. apply with_store_never. auto.
    Qed.
    Lemma bytes_never data : never (from_byte_slice EO SO A en b data).
    Proof.
      unfold from_byte_slice. cbv zeta. apply never_after. intros _. apply checked. intros Hn [size rc]. apply never_after. intros s.
      apply never_bind. apply with_store_never. auto.
    Qed.
    Lemma bytes_wc_never data c : never (from_byte_slice_with_config EO SO A en b data c).
    Proof.
      unfold from_byte_slice_with_config. cbv zeta. apply never_after. intros _. apply checked. intros Hn [size rc]. apply never_after. intros s.
      apply never_bind. apply with_store_never. auto.
    Qed.
    Lemma checked_at n (k : nat * nat -> SM fs (mtree (st_t SO) E)) f t f' : (b <= n -> forall x, k x f <> (Ok t, f')) ->
      sbind (slift (leafs_checks b n)) k f <> (Ok t, f').
    Proof.
      intros H. unfold sbind, slift. destruct (leafs_checks b n) as [[size rc]|e|e|] eqn:G; try discriminate. apply H. eapply checks_ge; eauto.
    Qed.
    Lemma fresh_never size c f (k : st_t SO -> SM fs (mtree (st_t SO) E)) t f' : fs_dir f (cfg_path c) = None ->
      (forall s, st_loaded_from_disk SO s = false -> never (k s)) -> sbind (st_new_with_config SO size b c) k f <> (Ok t, f').
    Proof.
      intros Hp Hk. unfold sbind. destruct (st_new_with_config SO size b c f) as [[s|e|e|] f1] eqn:G; try discriminate. apply Hk. eapply HN; eauto.
    Qed.
    Lemma iter_wc_never hint items c f t f' : fs_dir f (cfg_path c) = None -> try_from_iter_with_config EO SO A en b hint items c f <> (Ok t, f').
    Proof.
      intros Hp. unfold try_from_iter_with_config. unfold sbind at 1. destruct hint as [n|]; [|discriminate]. cbn [slift].
      apply checked_at. intros Hn [size rc]. apply fresh_never; [exact Hp|]. intros s ->. apply never_after. intros [_ s']. apply never_bind. apply with_store_never. auto.
    Qed.
    Lemma par_wc_never items c f t f' : fs_dir f (cfg_path c) = None -> from_par_iter_with_config EO SO A en b items c f <> (Ok t, f').
    Proof.
      intros Hp. unfold from_par_iter_with_config. cbv zeta.
      apply checked_at. intros Hn [size rc]. apply fresh_never; [exact Hp|]. intros s ->. apply never_after. intros [_ s']. apply never_bind. apply with_store_never. auto.
    Qed.
    Lemma builder_never leaves f t f' : ~ builder EO SO A en b leaves f (Ok t, f').
    Proof.
      intros HX. remember (Ok t, f') as r eqn:Hr. destruct HX.
      - revert Hr. apply iter_never.
      - revert Hr. apply iter_wc_never. exact H.
      - exact (par_never _ _ _ _ Hr).
      - exact (par_wc_never _ _ _ _ _ H0 Hr).
      - revert Hr. apply iter_never.
      - revert Hr. apply iter_wc_never. exact H.
      - exact (bytes_never _ _ _ _ Hr).
      - exact (bytes_wc_never _ _ _ _ _ Hr).
    Qed.
    Lemma cfg_builder_never c leaves f t f' : fs_dir f (cfg_path c) = None -> ~ cfg_builder EO SO A en b c leaves f (Ok t, f').
    Proof.
      intros Hp HX. remember (Ok t, f') as r eqn:Hr. destruct HX.
      - revert Hr. apply iter_wc_never. exact Hp.
      - exact (par_wc_never _ _ _ _ _ Hp Hr).
      - revert Hr. apply iter_wc_never. exact Hp.
      - exact (bytes_wc_never _ _ _ _ _ Hr).
    Qed.
  End Never.
End Ctors.

Lemma basic_fresh {E} (EO : ElementOps E) (EL : ElementLaws EO) SO np : basic_store EO SO np ->
  forall b size c f s f', fs_dir f (cfg_path c) = None -> st_new_with_config SO size b c f = (Ok s, f') -> st_loaded_from_disk SO s = false.
Proof.
  intros HS b size c f s f' Hp H. destruct (basic_laws EO EL SO np HS) as (owner & W & Rep & SL).
  destruct (sl_newc _ _ _ _ _ _ SL size b c f Hp) as (s1 & f1 & H1 & _ & _ & H2 & _). assert (s1 = s) by congruence. subst s1. exact H2.
Qed.

Lemma lc_fresh {E} (EO : ElementOps E) b size c f s f' : fs_dir f (cfg_path c) = None ->
  lc_new_with_config EO size b c f = (Ok s, f') -> lc_loaded s = false.
Proof.
  intros Hp H. unfold lc_new_with_config, fs_exists in H. unfold sbind at 1 in H. cbn [sget] in H. rewrite Hp in H.
  cbv zeta in H. do 6 (apply sbind_inv in H; destruct H as (? & ? & _ & H)). unfold sret in H. inversion H. reflexivity.
Qed.
