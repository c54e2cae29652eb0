(** Which object a match is about, and which matchers ask for no replacements. *)
From Verif Require Import Py Ast Template Matcher.

(** A match is handed through from the submatchers of these matchers; the
    sibling matchers hand through that of the sibling. *)
Fixpoint own_head (m : matcher) : bool :=
  match m with
  | MHasPrevSibling _ | MHasNextSibling _ => false
  | MBind _ m' _ _ | MRebind m' _ _ | MWithReplacements m' _ | MDebug m' | MMatchesRegex _ m'
  | MIsOrHasAncestor m' | MIsOrHasDescendant m' | MWithTopLevelImport m' _ _
  | MHasComments m' | MNoComments m' => own_head m'
  | MAnyOf ms => forallb own_head ms
  | _ => true
  end.
(** Matches that are about no object: of [StringMatch] and [FileMatchesRegex]. *)
Definition about_nothing (rm : pymatch) : Prop := rm = PMatch \/ exists s, rm = PString s.

(** No [WithReplacements] and no [RewriteFile] in it. *)
Fixpoint no_templates (m : matcher) : bool :=
  match m with
  | MWithReplacements _ _ | MRewriteFile _ _ => false
  | MAllOf ms | MAnyOf ms | MItemsAre ms | MGlob ms => forallb no_templates ms
  | MUnless m' | MOnce _ m' | MBind _ m' _ _ | MRebind m' _ _ | MDebug m' | MMatchesRegex _ m'
  | MHasItem _ m' | MContains m' | MConst _ m' | MHasParent m' | MIsOrHasAncestor m' | MHasChild m'
  | MIsOrHasDescendant m' | MHasPrevSibling m' | MHasNextSibling m' | MWithTopLevelImport m' _ _
  | MHasComments m' | MNoComments m' => no_templates m'
  | MNode _ fs => forallb (fun fm => no_templates (snd fm)) fs
  | MHasFirstAncestor a b => no_templates a && no_templates b
  | _ => true
  end.

(** The dictionaries in a matcher (group names of a regex, templates) are
    dictionaries: no key twice. *)
Fixpoint dicts_ok (m : matcher) : Prop :=
  match m with
  | MWithReplacements m' reps => dict_ok reps /\ dicts_ok m'
  | MMatchesRegex r m' => dict_ok (cr_groups r) /\ dicts_ok m'
  | MFileMatchesRegex r => dict_ok (cr_groups r)
  | MAllOf ms | MAnyOf ms | MItemsAre ms | MGlob ms => fold_right (fun m' P => dicts_ok m' /\ P) True ms
  | MUnless m' | MOnce _ m' | MBind _ m' _ _ | MRebind m' _ _ | MDebug m'
  | MHasItem _ m' | MContains m' | MConst _ m' | MHasParent m' | MIsOrHasAncestor m' | MHasChild m'
  | MIsOrHasDescendant m' | MHasPrevSibling m' | MHasNextSibling m' | MWithTopLevelImport m' _ _
  | MHasComments m' | MNoComments m' => dicts_ok m'
  | MNode _ fs => fold_right (fun (fm : text * matcher) P => dicts_ok (snd fm) /\ P) True fs
  | MHasFirstAncestor a b => dicts_ok a /\ dicts_ok b
  | _ => True
  end.
(** The bindings and replacements of a match are dictionaries. *)
Definition result_ok (r : result) : Prop :=
  (forall b, r_bindings r = Ok (Some b) -> dict_ok b) /\ (forall t, r_reps r = Ok t -> dict_ok t).
