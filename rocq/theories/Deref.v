(* The Deref views of src/store/vec.rs and src/store/mmap.rs *)
From Coq Require Import String List Arith Bool Lia Init.Byte.
From Verif Require Import Base Element FS Store VecStore MmapStore.
Import ListNotations.

Section Deref.
  Context {E : Type} (EO : ElementOps E).

  (* vec.rs 11-17: &self.0 *)
  Definition vec_deref (s : vec_t) : list E := s.

  (* mmap.rs 22-28: the whole map, as bytes; [fs_map_read] panics (SIGBUS) where a caller
     would touch a page behind the end of the file *)
  Definition mmap_deref (st : mmap_t * fs) : res (list byte) :=
    match mm_map (fst st) with
    | None => Panic "couldn't dereference"
    | Some m => fs_map_read (snd st) (mm_file (fst st)) 0 m
    end.
End Deref.
