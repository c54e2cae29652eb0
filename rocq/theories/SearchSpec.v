(** Specification vocabulary for C32, C34, C35, C42, C45, C46. *)
From Verif Require Import Py Subst SubstSpec Fmt ApplySpec Ast Template Search.

(** *** C34: rewriting a text step by step *)

Section Steps.
  Variable parse_ast : text -> text -> res parsed_file.
  Variable s : searcher.
  Variable path : text.

  (** Applying [subs] to [t] gives [t'], which parses, and searching it again
      finds [subs']. *)
  Definition step (t : text) (subs : list substitution) (t' : text) (subs' : list substitution) : Prop :=
    apply_substitutions t subs = Ok t'
    /\ exists parsed, parse_ast t' path = Ok parsed /\ s_find s parsed = Ok subs'.

  (** [run t subs batches t' pending]: starting from the text [t] with [subs] to
      apply, the [batches] are applied one after the other (each one found in
      the text that the previous one produced), giving [t'] in which [pending]
      was found.  Only the last search may come back empty. *)
  Inductive run : text -> list substitution -> list (list substitution) ->
                  text -> list substitution -> Prop :=
    | run_nil t subs : run t subs [] t subs
    | run_cons t subs t1 subs1 batches t' pending :
        step t subs t1 subs1 ->
        (subs1 = [] -> batches = []) ->
        run t1 subs1 batches t' pending ->
        run t subs (subs :: batches) t' pending.

  (** Why a run stops after [n] batches. *)
  Definition stops (max : nat) (n : nat) (t : text) (pending : list substitution) : Prop :=
    n = max
    \/ (n <> O /\ pending = [])
    \/ (exists t', apply_substitutions t pending = Ok t' /\ parse_ast t' path = Err ParseError).
  (** Where an exception can come from. *)
  Definition breaks (t : text) (pending : list substitution) (e : exn) : Prop :=
    apply_substitutions t pending = Err e
    \/ exists t', apply_substitutions t pending = Ok t'
         /\ ((e <> ParseError /\ parse_ast t' path = Err e)
             \/ exists p, parse_ast t' path = Ok p /\ s_find s p = Err e).
End Steps.

Definition Zlen {A} (l : list A) := Z.of_nat (length l).

(** What [fixed_point] gives back for a run with these batches. *)
Definition fp_result (initial : list substitution) (batches : list (list substitution))
           (a b : Z) (t : text) (out : list substitution) : Prop :=
  match batches with
  | [] => out = []
  | [_] => out = initial
  | _ => exists m, compile_substitutions (concat batches) a b t = Ok m /\ out = [m]
  end.

(** Maximal runs of results with equal [key_span]. *)
Inductive grouped : list substitution -> list (option span * list substitution) -> Prop :=
  | gr_nil : grouped [] []
  | gr_cons k g rest gs :
      g <> [] -> Forall (fun x => key_span x = k) g -> grouped rest gs ->
      (forall k' g' gs', gs = (k', g') :: gs' -> k' <> k) ->
      grouped (g ++ rest) ((k, g) :: gs).

(** *** C46 *)
(** A searcher that yields proper substitutions with offsets counted from the start. *)
Definition well_behaved (s : searcher) : Prop :=
  forall parsed subs, s_find s parsed = Ok subs ->
    Forall wf_sub subs /\ Forall nonneg_spans subs
    /\ Forall (fun x => forall a b, key_span x = Some (a, b) -> 0 <= a) subs.

(** *** C35: merging *)

(** The parts that count: the significant ones, or all if there is none. *)
Definition counted (subs : list substitution) : list substitution :=
  if existsb significant subs then filter significant subs else subs.

(** The non-empty messages of [subs], in order. *)
Definition messages_of (subs : list substitution) : list text :=
  flat_map (fun s => match message s with Some [] => [] | Some m => [m] | None => [] end) subs.

(** One entry of a merged message when the URLs differ: the message and the URL. *)
Definition entry (s : substitution) : text :=
  match message s with Some [] => TX "(no message)" | Some m => m | None => TX "(no message)" end
  ++ [NL] ++ TX "(" ++ match url s with Some u => u | None => TX "None" end ++ TX ")".

Definition all_equal {A} (l : list A) : Prop := forall x y, In x l -> In y l -> x = y.

Definition findings (l : list text) : text :=
  TX "There are a few findings here:" ++ [NL; NL] ++ join [NL; NL] l.

(** *** C32: the Substitution for one match *)

Definition meta_labels : list label := [MESSAGE_LABEL; URL_LABEL; CATEGORY_LABEL; SIGNIFICANT_LABEL].

(** The match object bound to [l] has a location. *)
Definition located_at (ms : dict pymatch) (l : label) (sp : span) : Prop :=
  exists m, In (l, m) ms /\ m_span m = Some sp /\ sp <> (-1, -1).

(** Filling in the template for [l] gives [t]: [l] is a located match, or a
    special label without a match. *)
Definition fills (parsed : parsed_file) (ms : dict pymatch) (ts : dict template)
           (l : label) (r : res text) : Prop :=
  exists tmpl, In (l, tmpl) ts
    /\ ((exists m, In (l, m) ms /\ (exists sp, m_span m = Some sp /\ sp <> (-1, -1))
                   /\ r = t_substitute tmpl parsed m ms)
        \/ ((forall m, ~ In (l, m) ms) /\ startswith (TX "__") l = true
            /\ r = t_substitute tmpl parsed PMatch ms)).

Definition optional_fill parsed ms ts l (o : option text) : Prop :=
  (forall t, o = Some t <-> fills parsed ms ts l (Ok t)).

(** [s] is the substitution that the match [ms] with templates [ts] stands for. *)
Definition describes (parsed : parsed_file) (key : dict pymatch -> res (option span))
           (ms : dict pymatch) (ts : dict template) (s : substitution) : Prop :=
  (forall l sp, In (l, sp) (matched_spans s) <-> located_at ms l sp)
  /\ primary_label s = TX "__root"
  /\ (exists r, replacements s = Some r
        /\ forall l t, In (l, t) r <-> fills parsed ms ts l (Ok t) /\ ~ In l meta_labels)
  /\ optional_fill parsed ms ts (TX "__message") (message s)
  /\ optional_fill parsed ms ts (TX "__url") (url s)
  /\ optional_fill parsed ms ts (TX "__category") (category s)
  /\ (significant s = true <-> exists t, t <> [] /\ fills parsed ms ts (TX "__significant") (Ok t))
  /\ key ms = Ok (key_span s).

Inductive described (parsed : parsed_file) (key : dict pymatch -> res (option span))
  : list (dict pymatch * dict template) -> list substitution -> Prop :=
  | ds_nil : described parsed key [] []
  | ds_skip ms ts rest out :
      (exists l, fills parsed ms ts l (Err RewriteError)) ->
      described parsed key rest out ->
      described parsed key ((ms, ts) :: rest) out
  | ds_keep ms ts rest s out :
      (forall l e, ~ fills parsed ms ts l (Err e)) ->
      describes parsed key ms ts s -> validate s = Ok tt ->
      described parsed key rest out ->
      described parsed key ((ms, ts) :: rest) (s :: out).

(** *** C13: pragmas *)

(** The categories of a pragma comment live under "pylint." for pylint and at
    the top for refex; other tags are ignored. *)
Definition tag_prefix (tag prefix : text) : Prop :=
  (tag = TX "pylint" /\ prefix = TX "pylint.") \/ (tag = TX "refex" /\ prefix = []).

(** [key=a,b,...] of the pragma names the category [c]. *)
Definition names (key : text) (p : pragma) (c : text) : Prop :=
  exists v d prefix, dget (p_data p) key = Some v /\ In d (split_char 44 v)   (* 44 = ',' *)
    /\ tag_prefix (p_tag p) prefix /\ c = prefix ++ strip d.
Definition disables := names (TX "disable").
Definition enables := names (TX "enable").

(** [e] is where the effect of a disable of [c] over [a, b) ends: at the first
    start of an enable of [c] within the range, or else at [b]. *)
Definition cut_end (ps : list pragma) (c : text) (a b e : Z) : Prop :=
  (e = b \/ exists q, In q ps /\ enables q c /\ e = p_start q /\ a <= p_start q < b)
  /\ forall q, In q ps -> enables q c -> a <= p_start q < b -> e <= p_start q.

(** [c] is disabled over [r]. *)
Definition disabled_range (ps : list pragma) (c : text) (r : span) : Prop :=
  exists p e, In p ps /\ disables p c /\ cut_end ps c (p_start p) (p_end p) e /\ r = (p_start p, e).

(** [s] is suppressed: a category that contains it is disabled somewhere in
    its primary span. *)
Definition pragma_excluded (ps : list pragma) (s : substitution) : Prop :=
  exists c r a b, in_category s (Some c) /\ disabled_range ps c r
    /\ has_primary s a b /\ intersects (a, b) r.

(** *** C42 *)
Definition is_python (p : parsed_file) : Prop := pf_py p <> None.

(** *** C45: regex groups *)

(** The templates use the label [l], as a destination or as a source. *)
Definition mentions (ts : dict template) (l : label) : Prop :=
  exists k t, In (k, t) ts /\ (l = k \/ exists vs, t_variables t = Ok vs /\ In l vs).

(** The label refers to the whole match, a named group or a numbered one. *)
Definition group_label (r : regex) (l : label) : Prop :=
  l = TX "__root" \/ In l (dkeys (r_groupindex r)) \/ exists i, 0 <= i <= r_groups r /\ l = int_label i.

Definition uses_group_zero (ts : dict template) : Prop := mentions ts (int_label 0).

(** What a compiled Python regex satisfies (names are identifiers, numbers are
    in range); and no group name starts with two underscores (such names are
    reserved: a group [__root] or [__message] would change the meaning). *)
Definition valid_regex (r : regex) : Prop :=
  0 <= r_groups r /\ dict_ok (r_groupindex r)
  /\ (forall n i, In (n, i) (r_groupindex r) ->
        1 <= i <= r_groups r /\ is_int_label n = false /\ startswith (TX "__") n = false).

(** [m.regs] of a match: one span per group, the first of which is matched. *)
Definition valid_regs (r : regex) (regs : list span) : Prop :=
  tlen regs = r_groups r + 1 /\ nth_error regs 0 <> Some (-1, -1).

(** The span of the group called [l] in a match. *)
Definition group_span (r : regex) (regs : list span) (l : label) (sp : span) : Prop :=
  (l = TX "__root" /\ nth_error regs 0 = Some sp)
  \/ (exists i, 1 <= i /\ l = int_label i /\ nth_error regs (Z.to_nat i) = Some sp)
  \/ (exists i, In (l, i) (r_groupindex r) /\ nth_error regs (Z.to_nat i) = Some sp).

(** The templates that the command line and fixers can give a RegexSearcher. *)
Inductive std_template : template -> Prop :=
  | std_literal s : std_template (literal_template s)
  | std_sh src : std_template (sh_template src)
  | std_regex src ps : std_template (regex_template src ps).
