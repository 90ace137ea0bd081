(* C68: a directory of trees behaves like a map from paths to trees, over any sequence of
   builds, reopenings, compactions and deletions.  Specification in DirSpec.v, proofs in
   DirFacts.v. *)
From Coq Require Import String List Arith NArith Bool Lia Init.Byte ZifyBool ZifyNat.
From Verif Require Import Base Element Hash Sizing FS Sched Store VecStore DiskStore MmapStore LevelCache ProofModel Tree ListFacts Spec SpecFacts SizingFacts StoreLaws BuildLoop ChunkFacts StoreSpec FileSpec TreeFacts ProofSpec TreeObs Builders Cases DirSpec DirFacts.
Import ListNotations.

(* one session: its answer is one the directory allows, and the directory afterwards
   describes the file system afterwards *)
Theorem C68_step : forall E (EO : ElementOps E), ElementLaws EO -> forall A : AlgOps E, AlgLaws A -> forall b, arity b -> forall s f q a f',
  describes EO A b s f -> serves EO A b f q (a, f') ->
  exists s', allowed EO A b s q a s' /\ describes EO A b s' f'.
Proof. intros E EO EL A AL b Hb s f q a f' HD HS. exact (serve_step EO EL A AL b Hb s f q (a, f') HD HS). Qed.

(* any number of sessions on an initially empty file system *)
Theorem C68_history : forall E (EO : ElementOps E), ElementLaws EO -> forall A : AlgOps E, AlgLaws A -> forall b, arity b -> forall l f',
  serves_all EO A b fs_empty l f' ->
  exists s', allowed_all EO A b (fun _ => None) l s' /\ describes EO A b s' f'.
Proof.
  intros E EO EL A AL b Hb l f' HS. refine (serve_all EO EL A AL b Hb _ _ l f' _ HS). split.
  - split; [intros p i H|intros p q i H]; discriminate.
  - intros p. exact I.
Qed.

(* what the specification says about a tree nobody compacts, deletes, or overwrites *)
Definition disturbs {E} (p : string) (q : request E) : Prop :=
  match q with
  | Compact c _ _ | Delete c | BuildPackedBytes c _ => cfg_path c = p
  | _ => False
  end.

Lemma allowed_keeps {E} (EO : ElementOps E) A b (s : dir E) q a s' p e : allowed EO A b s q a s' -> ~ disturbs p q -> s p = Some e -> s' p = Some e.
Proof.
  intros H Hn Hp.
  assert (U : forall p' o, (p' = p -> False) -> upd s p' o p = Some e).
  { intros p' o G. unfold upd. destruct (String.eqb_spec p p'); [congruence|exact Hp]. }
  destruct H as [c xs a s' H|c xs a s' H|c xs a s' H|c xs a s' H0 H|c xs e' a H|p' bs H|p' bs e' H|c n a H|c n a H|c n rp a H|c n v a s' H|c e' H|c H];
    cbn in Hn; try exact Hp; try (apply U; congruence); try (destruct H; try exact Hp; apply U; congruence).
Qed.

Lemma allowed_all_keeps {E} (EO : ElementOps E) A b (s : dir E) l s' p e : allowed_all EO A b s l s' ->
  Forall (fun qa => ~ disturbs p (fst qa)) l -> s p = Some e -> s' p = Some e.
Proof.
  intros H. induction H as [s|s q a s1 l s2 H1 H2 IH]; intros HF Hp; [exact Hp|]. inversion HF; subst.
  apply IH; [assumption|]. eapply allowed_keeps; eauto.
Qed.

(* a tree built at a free path is found again, complete, after any undisturbing history *)
Theorem C68_undisturbed : forall E (EO : ElementOps E), ElementLaws EO -> forall A : AlgOps E, AlgLaws A -> forall b, arity b ->
  forall l1 f1 q c leaves v f2 l2 f3 c' a f4,
  serves_all EO A b fs_empty l1 f1 -> file_at f1 (cfg_path c) = None ->
  q = Build c leaves \/ q = BuildBytes c leaves -> serves EO A b f1 q (Opened v, f2) ->
  serves_all EO A b f2 l2 f3 -> Forall (fun qa => ~ disturbs (cfg_path c) (fst qa)) l2 ->
  cfg_path c' = cfg_path c -> serves EO A b f3 (Open c' (List.length leaves)) (a, f4) ->
  exists v', a = Opened v' /\ tells EO A b leaves v' /\ v_root v' = v_root v.
Proof.
  intros E EO EL A AL b Hb l1 f1 q c leaves v f2 l2 f3 c' a f4 H1 Hfree Hq H2 H3 HF Hc H4.
  destruct (C68_history E EO EL A AL b Hb l1 f1 H1) as (s1 & _ & D1).
  destruct (C68_step E EO EL A AL b Hb s1 f1 q (Opened v) f2 D1 H2) as (s2 & A2 & D2).
  assert (Hs1 : s1 (cfg_path c) = None).
  { destruct D1 as [_ D1]. specialize (D1 (cfg_path c)). unfold file_at in *. destruct (fs_dir f1 (cfg_path c)); [discriminate|].
    destruct (s1 (cfg_path c)); [contradiction|reflexivity]. }
  assert (Hs2 : s2 (cfg_path c) = Some (Full leaves) /\ tells EO A b leaves v).
  { destruct Hq as [-> | ->]; inversion A2 as [? ? ? ? H|? ? ? ? H| | | | | | | | | | | ]; subst; inversion H; subst; try congruence;
      (split; [unfold upd; rewrite String.eqb_refl; reflexivity|assumption]). }
  destruct Hs2 as [Hs2 Hv].
  destruct (serve_all EO EL A AL b Hb s2 f2 l2 f3 D2 H3) as (s3 & A3 & D3).
  pose proof (allowed_all_keeps EO A b s2 l2 s3 _ _ A3 HF Hs2) as Hs3.
  destruct (C68_step E EO EL A AL b Hb s3 f3 _ a f4 D3 H4) as (s4 & A4 & _).
  inversion A4 as [ | | | | | | |? ? ? HO| | | | | ]; subst. rewrite <- Hc in Hs3.
  inversion HO as [G|leaves' v' G Hn Hv'|leaves' G Hn|keep R leaves' G|R leaves' v' G HR|bytes ? G|? G]; subst; rewrite Hs3 in G; try discriminate.
  - inversion G; subst leaves'. exists v'. split; [reflexivity|]. split; [exact Hv'|].
    destruct Hv as [(d & (_ & F1) & _ & _ & _ & R1) _]. destruct Hv' as [(d' & (_ & F2) & _ & _ & _ & R2) _].
    assert (d = d') by (apply (Nat.pow_inj_r b); [pose proof (arity_ge b Hb); lia|congruence]). subst d'. eapply MRoot_fun; eauto.
  - inversion G; subst leaves'. congruence.
Qed.

(* the same after a compaction that keeps the leaves, with the LevelCacheStore constructor *)
Theorem C68_compacted : forall E (EO : ElementOps E), ElementLaws EO -> forall A : AlgOps E, AlgLaws A -> forall b, arity b ->
  forall l1 f1 q c leaves v f2 l2 f3 c' f4 l3 f5 c'' a f6,
  serves_all EO A b fs_empty l1 f1 -> file_at f1 (cfg_path c) = None ->
  q = Build c leaves \/ q = BuildBytes c leaves -> serves EO A b f1 q (Opened v, f2) ->
  serves_all EO A b f2 l2 f3 -> Forall (fun qa => ~ disturbs (cfg_path c) (fst qa)) l2 ->
  cfg_path c' = cfg_path c -> serves EO A b f3 (Compact c' (List.length leaves) 1) (Done, f4) ->
  serves_all EO A b f4 l3 f5 -> Forall (fun qa => ~ disturbs (cfg_path c) (fst qa)) l3 ->
  cfg_path c'' = cfg_path c -> sc_rows_to_discard c'' = sc_rows_to_discard c' ->
  serves EO A b f5 (OpenPacked c'' (List.length leaves)) (a, f6) ->
  exists v', a = Opened v' /\ tells_packed EO A b (sc_rows_to_discard c') leaves v' /\ v_root v' = v_root v.
Proof.
  intros E EO EL A AL b Hb l1 f1 q c leaves v f2 l2 f3 c' f4 l3 f5 c'' a f6 H1 Hfree Hq H2 H3 HF Hc H4 H5 HF' Hc' HR H6.
  destruct (C68_history E EO EL A AL b Hb l1 f1 H1) as (s1 & _ & D1).
  destruct (C68_step E EO EL A AL b Hb s1 f1 q (Opened v) f2 D1 H2) as (s2 & A2 & D2).
  assert (Hs1 : s1 (cfg_path c) = None).
  { destruct D1 as [_ D1]. specialize (D1 (cfg_path c)). unfold file_at in *. destruct (fs_dir f1 (cfg_path c)); [discriminate|].
    destruct (s1 (cfg_path c)); [contradiction|reflexivity]. }
  assert (Hs2 : s2 (cfg_path c) = Some (Full leaves) /\ tells EO A b leaves v).
  { destruct Hq as [-> | ->]; inversion A2 as [? ? ? ? H|? ? ? ? H| | | | | | | | | | | ]; subst; inversion H; subst; try congruence;
      (split; [unfold upd; rewrite String.eqb_refl; reflexivity|assumption]). }
  destruct Hs2 as [Hs2 Hv].
  destruct (serve_all EO EL A AL b Hb s2 f2 l2 f3 D2 H3) as (s3 & A3 & D3).
  pose proof (allowed_all_keeps EO A b s2 l2 s3 _ _ A3 HF Hs2) as Hs3.
  destruct (C68_step E EO EL A AL b Hb s3 f3 _ Done f4 D3 H4) as (s4 & A4 & D4).
  assert (Hs4 : s4 (cfg_path c) = Some (pack true (sc_rows_to_discard c') leaves)).
  { rewrite <- Hc in *. inversion A4 as [ | | | | | | | | | |? ? ? ? ? HO| | ]; subst.
    inversion HO as [G|leaves' d G Hn Hd Hr|leaves' d G|leaves' G|R leaves' G|R leaves' ? o G|bytes ? o G|? G]; subst; rewrite Hs3 in G; try discriminate.
    inversion G; subst leaves'. unfold upd. rewrite String.eqb_refl. reflexivity. }
  destruct (serve_all EO EL A AL b Hb s4 f4 l3 f5 D4 H5) as (s5 & A5 & D5).
  pose proof (allowed_all_keeps EO A b s4 l3 s5 _ _ A5 HF' Hs4) as Hs5.
  destruct (C68_step E EO EL A AL b Hb s5 f5 _ a f6 D5 H6) as (s6 & A6 & _).
  rewrite <- Hc' in Hs5. rewrite <- HR in Hs5. inversion A6 as [ | | | | | | | |? ? ? HO| | | | ]; subst.
  inversion HO as [G|e leaves' v' G [Hm Hn] Hv'|e ? G Hno]; subst; rewrite Hs5 in G; try discriminate.
  - inversion G as [G']. assert (leaves' = leaves) by (eapply pack_inj; eauto). subst leaves'. exists v'. split; [reflexivity|]. rewrite <- HR. split; [exact Hv'|].
    destruct Hv as [(d & (_ & F1) & _ & _ & _ & R1) _]. destruct Hv' as [(d' & (_ & F2) & _ & _ & _ & R2) _].
    assert (d = d') by (apply (Nat.pow_inj_r b); [pose proof (arity_ge b Hb); lia|congruence]). subst d'. eapply MRoot_fun; eauto.
  - inversion G; subst e. exfalso. apply (Hno leaves). split; reflexivity.
Qed.

(* ------------------------------------------------------------------ *)
(* a concrete history: two trees; the first is reopened, its path asked for again with other
   leaves, compacted, opened from the compacted file, the second deleted *)
Lemma serves_cons {E} (EO : ElementOps E) A b f q af l f2 : serves EO A b f q af -> serves_all EO A b (snd af) l f2 ->
  serves_all EO A b f ((q, fst af) :: l) f2.
Proof. destruct af as [a f1]. intros H1 H2. econstructor; eauto. Qed.

Definition tag {E} (val : E -> nat) (a : answer E) : string * nat * list (option nat) :=
  match a with
  | Opened v => ("opened"%string, val (v_root v), map (fun k => match v_read v k with Ok x => Some (val x) | _ => None end) [0; 3; 7])
  | Done => ("done"%string, 0, []) | Refused => ("refused"%string, 0, []) | Crashed => ("crashed"%string, 0, [])
  end.
Definition cfg_b : StoreConfig := {| sc_path := "/d"; sc_id := "u"; sc_size := None; sc_rows_to_discard := 1 |}.
Definition eight (k : nat) : list B1 := map el (seq k 8).

Lemma chunk1 : chunk_ok env1 2.
Proof. split; [cbn; lia|reflexivity]. Qed.

Example C68_case : exists l f', serves_all BO sum_alg 2 fs_empty l f' /\
  map (fun qa => tag val (snd qa)) l =
    [ ("opened"%string, 240, [Some 19; Some 22; Some 26]);   (* build the first *)
      ("opened"%string, 149, [Some 60; Some 63; Some 67]);   (* build the second *)
      ("opened"%string, 240, [Some 19; Some 22; Some 26]);   (* open the first *)
      ("refused"%string, 0, []);                             (* with a wrong leaf count *)
      ("opened"%string, 240, [Some 19; Some 22; Some 26]);   (* build other leaves at its path *)
      ("done"%string, 0, []);                                (* compact it *)
      ("refused"%string, 0, []);                             (* open it as a complete tree *)
      ("opened"%string, 240, [Some 19; Some 22; Some 26]);   (* open it as a level cache *)
      ("done"%string, 0, []);                                (* delete the second *)
      ("refused"%string, 0, []) ].                           (* open that *)
Proof.
  eexists. eexists. split.
  - eapply serves_cons; [exact (S_new BO sum_alg 2 _ env1 cfg0 (eight 1) chunk1)|].
    eapply serves_cons; [exact (S_bytes BO sum_alg 2 _ env1 cfg_b (eight 60) chunk1)|].
    eapply serves_cons; [exact (S_open BO sum_alg 2 _ cfg0 8)|].
    eapply serves_cons; [exact (S_open BO sum_alg 2 _ cfg0 4)|].
    eapply serves_cons; [exact (S_par BO sum_alg 2 _ env1 cfg0 (eight 30) chunk1 ltac:(cbn; lia))|].
    eapply serves_cons; [exact (S_compact BO sum_alg 2 _ (fun k => k mod 3) cfg0 8 1)|].
    eapply serves_cons; [exact (S_open BO sum_alg 2 _ cfg0 8)|].
    eapply serves_cons; [exact (S_open_packed BO sum_alg 2 _ env1 cfg0 8 chunk1)|].
    eapply serves_cons; [exact (S_delete BO sum_alg 2 _ cfg_b)|].
    eapply serves_cons; [exact (S_open BO sum_alg 2 _ cfg_b 8)|].
    constructor.
  - cbn [map snd]. vm_compute. reflexivity.
Qed.

Print Assumptions C68_step.
Print Assumptions C68_history.
Print Assumptions C68_undisturbed.
Print Assumptions C68_compacted.
