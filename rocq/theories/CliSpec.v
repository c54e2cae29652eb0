(** How the command line should be read (C39, C40). *)
From Verif Require Import Py Subst Ast Search Codec Runner Cli.

Definition is_match_opt (o : opt) : Prop := match o with OMatch _ => True | _ => False end.

(** The substitutions given by the options between two patterns: none; one --sub;
    or --named-sub options, each of the form name=pattern, with distinct names,
    where the root may only be named last. *)
Inductive seg_sub : list opt -> dict text -> Prop :=
  | Seg_none : seg_sub [] []
  | Seg_sub v : seg_sub [OSub v] [(TX "__root", v)]
  | Seg_named nps : NoDup (map fst nps) -> ~ In (TX "__root") (map fst (removelast nps)) ->
      Forall (fun np : text * text => ~ In EQUALS (fst np)) nps ->
      seg_sub (map (fun np => ONamed (fst np ++ [EQUALS] ++ snd np)) nps) nps.

(** A command line: options before the first --match, then each --match with the
    options up to the next one. *)
Definition cmdline (pre : list opt) (gs : list (text * list opt)) : list opt :=
  pre ++ flat_map (fun g => OMatch (fst g) :: snd g) gs.
Definition no_matches (pre : list opt) (gs : list (text * list opt)) : Prop :=
  Forall (fun o => ~ is_match_opt o) pre /\ Forall (fun g => Forall (fun o => ~ is_match_opt o) (snd g)) gs.

(** What it means. *)
Definition means (pre : list opt) (gs : list (text * list opt)) (srs : list search_replace) : Prop :=
  match gs with
  | [] => exists d, seg_sub pre d /\ srs = [SR None d]
  | (v, seg) :: rest =>
      exists d srs', seg_sub (pre ++ seg) d /\ srs = SR (Some v) d :: srs'
        /\ Forall2 (fun g sr => sr_match sr = Some (fst g) /\ seg_sub (snd g) (sr_sub sr)) rest srs'
  end.
