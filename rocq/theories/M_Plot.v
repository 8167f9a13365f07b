(** EntitySet.plot: entityset/entityset.py L927-972, utils/plot_utils.py L25-56.
    Simplified: a picture is its list of nodes and edges; rendering is the function [draw]; record labels are not parsed, so the
    characters with a meaning in them are not treated. *)
From Coq Require Import String Ascii List Bool Decimal DecimalString.
From Verif Require Import Base M_Schema.
Import ListNotations.
Local Open Scope string_scope.
Local Open Scope list_scope.

(** an entity as far as it is drawn; [e_rows] is [None] for a Dask entity *)
Record pentity : Type := mkPe { e_id : string; e_rows : option nat; e_vars : list (string * string) }.
Record pnode : Type := mkNode { n_id : string; n_label : string }.
(** an edge with the text given for its ends *)
Record pedge : Type := mkEdge { t_text : string; h_text : string; x_label : string }.
Record picture : Type := mkPic { pic_nodes : list pnode; pic_edges : list pedge }.

(** L950-951: [var.id + ' : ' + var.type_string], joined by a left-justified line break *)
Definition vars_text (vs : list (string * string)) : string := String.concat "\l" (map (fun v => (fst v ++ " : " ++ snd v)%string) vs).
Definition decimal (n : nat) : string := NilEmpty.string_of_uint (Nat.to_uint n).
(** L952-956 *)
Definition node_label (e : pentity) : string :=
  match e_rows e with
  | None => ("{" ++ e_id e ++ " |" ++ vars_text (e_vars e) ++ "\l}")%string
  | Some n => ("{" ++ e_id e ++ " (" ++ decimal n ++ " row" ++ (if Nat.ltb 1 n then "s" else "") ++ ")|" ++ vars_text (e_vars e) ++ "\l}")%string
  end.
(** L962-966 *)
Definition edge_label (r : relationship) : string :=
  if String.eqb (r_pv r) (r_cv r) then r_pv r else (r_pv r ++ " -> " ++ r_cv r)%string.
(** L949-968 *)
Definition plot (es : list pentity) (rels : list relationship) : picture :=
  mkPic (map (fun e => mkNode (e_id e) (node_label e)) es) (map (fun r => mkEdge (r_ce r) (r_pe r) (edge_label r)) rels).
(** graphviz reads "name:port" as an end of an edge: the node is what comes before the first colon *)
Fixpoint before_colon (s : string) : string :=
  match s with EmptyString => EmptyString | String a s => if Ascii.eqb a ":" then EmptyString else String a (before_colon s) end.
Definition ends (x : pedge) : string * string := (before_colon (t_text x), before_colon (h_text x)).

(** ** Saving *)
(** [to_file]: text, or a Path object with its text *)
Inductive target : Type := Text (s : string) | Path (s : string).
(** str.split('.'), L30 *)
Fixpoint split_dot (s : string) : list string :=
  match s with
  | EmptyString => [""]
  | String a s => let l := split_dot s in
                  if Ascii.eqb a "." then "" :: l else match l with x :: l => String a x :: l | [] => [String a ""] end
  end.
(** plot_utils.py L25-43 [get_graphviz_format] for a given [to_file]; [formats] is graphviz.backend.FORMATS *)
Definition get_format (formats : list string) (t : target) : res string :=
  let s := match t with Text s => s | Path s => s end in
  if Nat.ltb (List.length (split_dot s)) 2 then Err ValueError
  else let f := List.last (split_dot s) "" in
       if mem_str f formats then Ok f else Err ValueError.
Fixpoint prefix_of (n : nat) (s : string) : string := match n, s with S n, String a s => String a (prefix_of n s) | _, _ => EmptyString end.
(** files by name *)
Definition disk : Type := list (string * string).
Definition remove_file (n : string) (d : disk) : disk := filter (fun kv => negb (String.eqb (fst kv) n)) d.
(** plot_utils.py L46-51 [save_graph]; [to_file[:-offset]] fails on a Path.  graphviz' [render(path, cleanup=True)] writes the
    source of the graph to [path], the picture to [path.format] and removes [path] *)
Definition save_graph (source drawn : string) (t : target) (fmt : string) (d : disk) : res disk :=
  match t with
  | Path _ => Err TypeError
  | Text s =>
    let out := prefix_of (String.length s - (String.length fmt + 1)) s in
    let d := dset String.eqb out source d in
    let d := dset String.eqb (out ++ "." ++ fmt)%string drawn d in
    Ok (remove_file out d)
  end.
(** entityset.py L941-942, L970-972: the picture and the files afterwards *)
Definition plot_to (formats : list string) (source_of draw : picture -> string) (es : list pentity) (rels : list relationship) (to_file : option target) (d : disk) : res (picture * disk) :=
  let p := plot es rels in
  match to_file with
  | None => Ok (p, d)
  | Some t => do f <- get_format formats t; do d <- save_graph (source_of p) (draw p) t f d; Ok (p, d)
  end.
