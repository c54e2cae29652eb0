(** What fixers should report. *)
From Verif Require Import Py Subst Ast Template Matcher MatchSpec FindSpec Search SearchSpec Removal OwnSpec Fixer.

(** Running the fixer [f] on [v]; [s] and [s'] are the [Once] keys run before and
    after. *)
Definition fixer_matches (e : env) (v : value) (f : fixer) (s s' : list Z) (o : option result) : Prop :=
  exists m, matcher_with_meta f = Ok m /\ eval e m v s = (s', Ok o).
(** [f] declares that it does not apply to objects like [v]. *)
Definition fixer_excludes (v : value) (f : fixer) : Prop :=
  exists m ts, matcher_with_meta f = Ok m /\ type_filter m = Some ts /\ ~ In (vtype v) ts.
(** [f] is the first of the fixers that matches [v]; its result is [r]. *)
Inductive first_fixer (e : env) (v : value) : list fixer -> list Z -> list Z -> fixer -> result -> Prop :=
  | FF_here f fs s s' r : fixer_matches e v f s s' (Some r) -> first_fixer e v (f :: fs) s s' f r
  | FF_fails f0 fs s s1 s' f r : fixer_matches e v f0 s s1 None ->
      first_fixer e v fs s1 s' f r -> first_fixer e v (f0 :: fs) s s' f r
  | FF_excluded f0 fs s s' f r : fixer_excludes v f0 ->
      first_fixer e v fs s s' f r -> first_fixer e v (f0 :: fs) s s' f r.

(** A fixer as they are written: the special labels are used only for the
    metadata given to the fixer. *)
Record plain_fixer (f : fixer) : Prop := {
  pf_dicts : dicts_ok (fx_matcher f);
  pf_rewrite_free : rewrite_free (fx_matcher f) = true;
  pf_no_templates : no_templates (fx_matcher f) = true;
  pf_bind : forall l, In l meta_labels -> ~ In l (bind_variables (fx_matcher f));
  pf_repl : match fx_replacement f with
            | inl _ => True
            | inr d => dict_ok d /\ forall l, In l meta_labels -> ~ In l (dkeys d)
            end
}.
(** The substitution carries the metadata of the fixer. *)
Definition carries (f : fixer) (sub : substitution) : Prop :=
  message sub = fx_message f /\ url sub = fx_url f /\ category sub = fx_category f
  /\ significant sub = fx_significant f.
(** The templates that are used: those of the fixer, except that the removal of a
    statement may have been changed to [pass]. *)
Definition own_templates (pass_template : template) (f : fixer) (ts : dict template) : Prop :=
  Forall2 (fun xt xt' : label * template => fst xt = fst xt' /\
      (snd xt' = snd xt \/ (t_template (snd xt) = [] /\ snd xt' = pass_template)))
    (fixer_templates f) ts.
(** The matches that are used: what the matcher has bound, except that the extent
    of a removed statement may have been changed. *)
Definition own_matches (f : fixer) (r : result) (ms : dict pymatch) : Prop :=
  dict_ok ms /\ exists b, r_bindings r = Ok (Some b)
    /\ forall l, dget ms l = option_map b_value (dget b l)
       \/ exists v txt f1 l1 a1 b1 f2 l2 a2 b2 t,
            dget (fixer_templates f) l = Some t /\ t_template t = [] /\ is_stmt v = true
            /\ option_map b_value (dget b l) = Some (PLex v txt f1 l1 a1 b1) /\ dget ms l = Some (PLex v txt f2 l2 a2 b2).

(** [subs] are made from the matches [hs], in order; a match for which a template
    raises RewriteError is left out. *)
Inductive made_from (skipped : hit -> Prop) (made : hit -> substitution -> Prop) : list hit -> list substitution -> Prop :=
  | MF_nil : made_from skipped made [] []
  | MF_skip h hs subs : skipped h -> made_from skipped made hs subs -> made_from skipped made (h :: hs) subs
  | MF_keep h hs sub subs : made h sub -> made_from skipped made hs subs -> made_from skipped made (h :: hs) (sub :: subs).

(** The dictionaries that the fixer [f] makes of the match [h]. *)
Definition by_fixer (pass_template : template) (e : env) (fs : list fixer) (h : hit) (f : fixer)
  (ms : dict pymatch) (ts : dict template) : Prop :=
  (exists d, first_fixer (with_done e d) (h_value h) fs [] (h_ran h) f (h_result h))
  /\ own_matches f (h_result h) ms /\ own_templates pass_template f ts.

(** A fixer whose templates use only what it binds, and that declares which types
    it applies to. *)
Definition accepted (f : fixer) : Prop :=
  exists m, matcher_with_meta f = Ok m /\ type_filter (fx_matcher f) <> None.
