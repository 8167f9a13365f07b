(** Models save_csv_decorator (computational_backends/utils.py L33-52), the only code that writes progress files. *)
From Verif Require Import Base M_Time.

(** L41: '%Y_%m_%d_%I-%M-%S-%f' - the day, and the microseconds in the half day ([%I] is the hour of a
    12-hour clock, without a.m./p.m.) *)
Definition file_name : Type := Z * Z.
Definition half_day_us : Z := 43200000000.
Definition name_of (t : Z) : file_name := (t / day_ns, ((t mod day_ns) / 1000) mod half_day_us)%Z.
Definition name_eqb (a b : file_name) : bool := (Z.eqb (fst a) (fst b) && Z.eqb (snd a) (snd b))%bool.

(** One call: the cutoff time and the lines of the csv file of the result.  L40: [args[0].to_pydatetime()] needs a
    timestamp; a numeric time raises AttributeError before anything is done. *)
Inductive call_time : Type := AtTimestamp (t : Z) | AtNumber (z : Z).
Definition progress_name (t : call_time) : res file_name :=
  match t with AtTimestamp t => Ok (name_of t) | AtNumber _ => Err AttributeError end.

(** The visible effects of a call, in program order.  [Seen b]: os.path.exists(temp_dir) returned [b] (L44); [MkTemp]:
    os.makedirs (L45); [OpenTemp], [AppendLine]: r.to_csv(temp_file_path) creates the file and writes it piece by
    piece (L48); [Rename]: os.rename (L49), atomic.  Simplification: a process whose temp file was renamed away by another
    process would go on writing into the renamed file; here its next write raises. *)
Inductive op : Type :=
| Seen (b : bool)
| MkTemp
| OpenTemp (n : file_name)
| AppendLine (n : file_name) (line : string)
| Rename (n : file_name).

Record fs : Type := mkFs { temp_dir : bool; temp : file_name -> option (list string); final : file_name -> option (list string) }.

Definition fset (n : file_name) (v : option (list string)) (m : file_name -> option (list string)) : file_name -> option (list string) :=
  fun k => if name_eqb k n then v else m k.

(** [None]: not an execution (the observation differs); [Some (Err _)]: the call raises.  FileExistsError and
    FileNotFoundError are RuntimeError here. *)
Definition step (s : fs) (o : op) : option (res fs) :=
  match o with
  | Seen b => if Bool.eqb b (temp_dir s) then Some (Ok s) else None
  | MkTemp => if temp_dir s then Some (Err RuntimeError) else Some (Ok (mkFs true (temp s) (final s)))
  | OpenTemp n => if temp_dir s then Some (Ok (mkFs true (fset n (Some []) (temp s)) (final s))) else Some (Err RuntimeError)
  | AppendLine n l =>
    match temp s n with
    | Some ls => Some (Ok (mkFs (temp_dir s) (fset n (Some (ls ++ [l])) (temp s)) (final s)))
    | None => Some (Err RuntimeError)
    end
  | Rename n =>
    match temp s n with
    | Some ls => Some (Ok (mkFs (temp_dir s) (fset n None (temp s)) (fset n (Some ls) (final s))))
    | None => Some (Err RuntimeError)
    end
  end.

Fixpoint exec (s : fs) (tr : list op) : option (res fs) :=
  match tr with
  | [] => Some (Ok s)
  | o :: tr' => match step s o with Some (Ok s') => exec s' tr' | r => r end
  end.

(** L43-49: the steps of one call *)
Definition body (n : file_name) (ls : list string) : list op := OpenTemp n :: map (AppendLine n) ls ++ [Rename n].
Definition call_ops (t : Z) (ls : list string) (existed : bool) : list op :=
  if existed then Seen true :: body (name_of t) ls else Seen false :: MkTemp :: body (name_of t) ls.

(** the calls of one process, one after the other: the time, the lines, whether the temp directory was seen *)
Definition process (calls : list (Z * list string * bool)) : list op :=
  flat_map (fun c => call_ops (fst (fst c)) (snd (fst c)) (snd c)) calls.
