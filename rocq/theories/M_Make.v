(** Primitives made from functions: primitives/base/aggregation_primitive_base.py L38-166 [make_agg_primitive],
    primitives/base/transform_primitive_base.py L28-124 [make_trans_primitive], primitives/base/utils.py L4-18 [inspect_function_args];
    saving and loading them: primitives/base/primitive_base.py L85-107, primitives/utils.py L178-217; calling them:
    computational_backends/feature_set_calculator.py L450-457, L499-506, L768-790.
    Simplifications: functions take no *args or **kwargs and no positional-only or keyword-only parameters; cls_attributes, types and stacking
    attributes are left out; deep copies are equal to what was copied; loading finds the class that was saved (the lookup is in M_Serialize). *)
From Verif Require Import Base.
Local Open Scope string_scope.

Section Make.
  (** python objects: columns, settings, times, results *)
  Variable V : Type.
  Variable empty_column nan : V.
  (** a function: __name__, its parameters with their defaults, and what it computes from one value per parameter *)
  Record func : Type := mkFunc { u_name : string; u_params : list (string * option V); u_run : list V -> res V }.

  (** ** Calls in Python *)
  (** binding positional and keyword arguments to parameters *)
  Fixpoint bind_args (ps : list (string * option V)) (pos : list V) (kw : list (string * V)) : res (list V) :=
    match ps, pos with
    | [], [] => Ok []
    | [], _ :: _ => Err TypeError
    | (n, _) :: ps, v :: pos =>
      match dget String.eqb n kw with Some _ => Err TypeError | None => do vs <- bind_args ps pos kw; Ok (v :: vs) end
    | (n, d) :: ps, [] =>
      match dget String.eqb n kw, d with
      | Some v, _ => do vs <- bind_args ps [] kw; Ok (v :: vs)
      | None, Some v => do vs <- bind_args ps [] kw; Ok (v :: vs)
      | None, None => Err TypeError
      end
    end.
  Definition py_call (f : func) (pos : list V) (kw : list (string * V)) : res V :=
    if forallb (fun a : string * V => mem_str (fst a) (map fst (u_params f))) kw then do vs <- bind_args (u_params f) pos kw; u_run f vs else Err TypeError.
  Definition dict_update (d kw : list (string * V)) : list (string * V) := fold_left (fun d a => dset String.eqb (fst a) (snd a) d) kw d.

  (** ** Making a class *)
  Record made : Type := mkMade {
    k_agg : bool; k_name : string; k_func : func;
    k_kwargs : list (string * V);       (* default_kwargs; [] when the class has none *)
    k_time : bool;                      (* uses_calc_time *)
    k_default : V                       (* default_value *)
  }.
  (** utils.py L4-18: (uses_calc_time of the class, default_kwargs) *)
  Definition inspect_function_args (f : func) (uses_calc_time : bool) : res (bool * list (string * V)) :=
    foldM (fun acc arg =>
      do time <- (if String.eqb (fst arg) "time" then if uses_calc_time then Ok true else Err ValueError else Ok (fst acc));
      Ok (time, match snd arg with Some d => dset String.eqb (fst arg) d (snd acc) | None => snd acc end)) (u_params f) (false, []).
  (** agg L122, trans L92: [name or function.__name__] *)
  Definition class_name (f : func) (name : option string) : string :=
    match name with Some n => if String.eqb n "" then u_name f else n | None => u_name f end.
  (** transform_primitive_base.py L28-124 *)
  Definition make_trans (f : func) (name : option string) (uses_calc_time : bool) : res made :=
    do tk <- inspect_function_args f uses_calc_time;
    Ok (mkMade false (class_name f name) f (snd tk) (fst tk) nan).
  (** aggregation_primitive_base.py L38-166; [inputs] is len(input_types), [default] the default_value given *)
  Definition make_agg (f : func) (inputs : nat) (name : option string) (uses_calc_time : bool) (default : option V) : res made :=
    do tk <- inspect_function_args f uses_calc_time;
    let dv := match default with
              | Some v => v
              | None => match py_call f (repeat empty_column inputs) [] with Ok v => v | Err _ => nan end      (* L155-160 *)
              end in
    Ok (mkMade true (class_name f name) f (snd tk) (fst tk) dv).

  (** ** Instances *)
  Record inst : Type := mkInst { i_class : made; i_kwargs : list (string * V) }.
  (** agg L137-141, trans L109-113; without default_kwargs, PrimitiveBase.__init__(self) (primitive_base.py L45) *)
  Definition instantiate (k : made) (pos : list V) (kw : list (string * V)) : res inst :=
    match k_kwargs k with
    | [] => match pos, kw with [], [] => Ok (mkInst k []) | _, _ => Err TypeError end
    | d =>
      match pos, k_agg k with
      | _ :: _, true => Err TypeError                       (* def new_class_init(self, **kwargs) *)
      | _, _ => Ok (mkInst k (dict_update d kw))            (* def new_class_init(self, *args, **kwargs): args is not used *)
      end
    end.
  (** the calculator: get_function()( *columns, time=time_last ) *)
  Definition calculate (p : inst) (columns : list V) (time_last : V) : res V :=
    let kw := if k_time (i_class p) then [("time", time_last)] else [] in
    match k_kwargs (i_class p) with
    | [] => py_call (k_func (i_class p)) columns kw
    | _ => py_call (k_func (i_class p)) columns (dict_update (i_kwargs p) kw)      (* functools.partial *)
    end.

  (** ** Saving and loading *)
  (** primitive_base.py L85-107: the signature of the class has no standard arguments, or none at all *)
  Definition saved_arguments (p : inst) : list (string * V) := [].
  (** primitives/utils.py L178-187 and L216-217: the class, called with the saved arguments *)
  Definition save_and_load (p : inst) : res inst := instantiate (i_class p) [] (saved_arguments p).
End Make.
