(** Pragma comments: refex/parsed_file.py 57-117 and refex/python/matcher.py
    1206-1298, 1339.  Definitions only. *)
From Verif Require Import Py Ast.

(** *** A backtracking regex matcher with groups

    The fragment of Python's [re] that [_PRAGMA_RE] uses: character classes,
    sequence, alternation (left first), greedy [?] and [*], named groups, [\A] and
    [\Z].  An iteration of [*] that consumes nothing is not taken. *)
Inductive rx :=
  | XCls (p : char -> bool)
  | XSeq (a b : rx)
  | XAlt (a b : rx)
  | XStar (a : rx)
  | XGroup (name : text) (a : rx)
  | XBegin
  | XEnd
  | XEps.

(** What was consumed (reversed), what remains, groups set so far. *)
Record rstate := RS { rs_before : text; rs_rest : text; rs_caps : dict text }.

Fixpoint bt {R} (r : rx) (k : rstate -> option R) (s : rstate) : option R :=
  match r with
  | XCls p =>
      match rs_rest s with
      | c :: rest => if p c then k (RS (c :: rs_before s) rest (rs_caps s)) else None
      | [] => None
      end
  | XSeq a b => bt a (bt b k) s
  | XAlt a b => match bt a k s with Some x => Some x | None => bt b k s end
  | XStar a =>
      (fix loop (n : nat) (s : rstate) : option R :=
         match n with
         | O => k s
         | S n' =>
             match bt a (fun s' => if (length (rs_rest s') <? length (rs_rest s))%nat
                                   then loop n' s' else None) s with
             | Some x => Some x
             | None => k s
             end
         end) (length (rs_rest s)) s
  | XGroup name a =>
      bt a (fun s' =>
        k (RS (rs_before s') (rs_rest s')
              (dset (rs_caps s') name
                    (firstn (length (rs_rest s) - length (rs_rest s')) (rs_rest s))))) s
  | XBegin => match rs_before s with [] => k s | _ => None end
  | XEnd => match rs_rest s with [] => k s | _ => None end
  | XEps => k s
  end.

(** [re.search]: the leftmost position where there is a match; the groups. *)
Fixpoint rx_search_from (r : rx) (before rest : text) : option (dict text) :=
  match bt r (fun s => Some (rs_caps s)) (RS before rest []) with
  | Some d => Some d
  | None => match rest with
            | [] => None
            | c :: rest' => rx_search_from r (c :: before) rest'
            end
  end.
Definition rx_search (r : rx) (t : text) : option (dict text) := rx_search_from r [] t.

Definition XPlus (a : rx) : rx := XSeq a (XStar a).
Definition XOpt (a : rx) : rx := XAlt a XEps.
Definition XChr (c : char) : rx := XCls (Z.eqb c).
Fixpoint XSeqs (l : list rx) : rx :=
  match l with [] => XEps | [a] => a | a :: rest => XSeq a (XSeqs rest) end.

Section Pragma.
  (** [\w] beyond ASCII: an oracle, [str.isalnum] of a code point >= 128. *)
  Variable uni_word : char -> bool.

  (** [\w]; a whitespace character is never alphanumeric. *)
  Definition is_word (c : char) : bool :=
    if c <? 128 then
      ((48 <=? c) && (c <=? 57)) || ((65 <=? c) && (c <=? 90)) || (c =? 95)
      || ((97 <=? c) && (c <=? 122))
    else uni_word c && negb (is_space c).
  (** [[-\w]] and [[-\w.]] *)
  Definition is_name (c : char) : bool := (c =? 45) || is_word c.
  Definition is_value (c : char) : bool := (c =? 46) || is_name c.

  (** parsed_file.py 57-73 [_PRAGMA_RE], piece by piece. *)
  Definition PRAGMA_RE : rx :=
    let ws := XStar (XCls is_space) in
    XSeqs [
      XAlt (XCls (fun c => negb (is_name c))) XBegin;       (* (?:[^-\w]|\A) *)
      XGroup (TX "tag") (XPlus (XCls is_name)); ws;         (* (?P<tag>[-\w]+)\s* *)
      XChr 58;                                              (* : *)
      ws;                                                   (* \s* *)
      XGroup (TX "data") (XSeqs [                           (* (?P<data> *)
        XPlus (XCls is_name); ws; XChr 61; ws; XPlus (XCls is_value); ws;
        XStar (XSeqs [XChr 44; ws; XPlus (XCls is_name); ws; XChr 61; ws;
                      XPlus (XCls is_value); ws])]);
      XOpt (XSeq (XChr 44) ws);                             (* (?:,\s* )? *)
      XEnd ].                                               (* \Z *)

  (** parsed_file.py 93-117 [Pragma.from_text]. *)
  Definition from_text (t : text) (start end_ : Z) : option pragma :=
    match rx_search PRAGMA_RE t with
    | None => None
    | Some m =>
        match dget m (TX "tag"), dget m (TX "data") with
        | Some tag, Some data =>
            Some (Pragma tag
              (fold_left (fun d declaration =>
                            let '(key, _, value) := partition_char 61 declaration in
                            dset d (strip key) (strip value))
                         (split_char 44 data) [])
              start end_)
        | _, _ => None
        end
    end.

  (** *** matcher.py 1206-1240 [_FORMATTING_TOKENS], [_indents] *)
  Definition is_formatting (t : token) : bool :=
    (tk_type t =? T_NL) || (tk_type t =? T_COMMENT).

  Fixpoint indents_go (newline_start : option Z) (toks : list token) : list Z :=
    match toks with
    | [] => []
    | t :: rest =>
        if is_formatting t then indents_go newline_start rest
        else if tk_type t =? T_NEWLINE then indents_go (Some (tk_end t)) rest
        else if tk_type t =? T_INDENT then
          match newline_start with
          | None => tk_start t
          | Some p => p
          end :: indents_go newline_start rest
        else indents_go None rest
    end.
  Definition indents (toks : list token) : list Z := indents_go None toks.

  (** *** matcher.py 1243-1298 [_pragmas] *)

  (** [incomplete_pragmas]: a [defaultdict(list)] keyed by the indent count. *)
  Definition incomplete := list (Z * list (text * Z)).
  Fixpoint inc_get (d : incomplete) (n : Z) : list (text * Z) :=
    match d with
    | [] => []
    | (k, l) :: rest => if k =? n then l else inc_get rest n
    end.
  Definition inc_del (d : incomplete) (n : Z) : incomplete :=
    filter (fun kl => negb (fst kl =? n)) d.
  Definition inc_add (d : incomplete) (n : Z) (x : text * Z) : incomplete :=
    (n, inc_get d n ++ [x]) :: inc_del d n.

  Definition opt_list {A} (o : option A) : list A := match o with Some x => [x] | None => [] end.

  Fixpoint pragmas_go (fresh_line : bool) (line_start n : Z) (inc : incomplete)
           (indent_starts : list Z) (toks : list token) : list pragma :=
    match toks with
    | [] => []
    | t :: rest =>
        if (tk_type t =? T_NEWLINE) || (tk_type t =? T_NL) then
          let line_start := tk_end t in
          if existsb (Z.eqb line_start) indent_starts then
            pragmas_go true line_start (n + 1) inc
                       (filter (fun p => negb (p =? line_start)) indent_starts) rest
          else pragmas_go true line_start n inc indent_starts rest
        else if (tk_type t =? T_DEDENT) || (tk_type t =? T_ENDMARKER) then
          flat_map (fun sp => opt_list (from_text (fst sp) (snd sp) (tk_start t))) (inc_get inc n)
          ++ pragmas_go fresh_line line_start (n - 1) (inc_del inc n) indent_starts rest
        else if tk_type t =? T_COMMENT then
          if fresh_line then
            pragmas_go fresh_line line_start n (inc_add inc n (tk_string t, line_start))
                       indent_starts rest
          else
            opt_list (from_text (tk_string t) line_start (tk_end t))
            ++ pragmas_go fresh_line line_start n inc indent_starts rest
        else pragmas_go false line_start n inc indent_starts rest
    end.
  Definition pragmas_of_tokens (toks : list token) : list pragma :=
    pragmas_go true 0 0 [] (indents toks) toks.

  (** matcher.py 1339: [tuple(sorted(_pragmas(tokens), key=lambda p: p.start))]. *)
  Definition parse_pragmas (toks : list token) : list pragma :=
    py_sorted (fun a b => p_start a <=? p_start b) (pragmas_of_tokens toks).
End Pragma.
