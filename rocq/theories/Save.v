(* Save.v -- MODEL of saving and loading models (models/base.py 87-147, models/forecasters.py 464-470,
   models/anomaly_detectors.py 191-217).

   Python values, JSON documents and the file system are trees: the json module is only assumed to write and read
   back the same document.  Paths are relative to the current directory, without '.' and '..'; there are no links
   and no other process touches the files. *)
From Coq Require Import DecimalString DecimalZ.
From Verif Require Export Models Forecast.

(* ---------------- values ---------------- *)

(* The keys of Python dictionaries, strings or integers. *)
Inductive key := KS (s : string) | KI (z : Z).
Definition key_eqb (a b : key) : bool :=
  match a, b with KS x, KS y => String.eqb x y | KI x, KI y => Z.eqb x y | _, _ => false end.
(* What a model can keep in its data: numbers (integers and floats), strings, .., time units, and any other object
   the json module does not know about (functions, arrays, ..). *)
Inductive pv := VNull | VBool (b : bool) | VNum (q : Qc) | VStr (s : string) | VList (l : list pv) | VDict (d : list (key * pv)) | VUnit (u : tunit) | VOther.
(* A JSON document. *)
Inductive json := JNull | JBool (b : bool) | JNum (q : Qc) | JStr (s : string) | JArr (l : list json) | JObj (d : list (string * json)).

Fixpoint kget {V} (k : key) (d : list (key * V)) : option V :=
  match d with [] => None | (a, v) :: r => if key_eqb k a then Some v else kget k r end.

(* str() of an integer and int() of a string (of the digits of an integer; int() also accepts blanks and
   underscores) *)
Definition int_str (z : Z) : string := NilZero.string_of_int (Z.to_int z).
Definition str_int (s : string) : result Z :=
  match NilZero.int_of_string s with Some d => Ok (Z.of_int d) | None => Err ValueError end.

Definition key_str (k : key) : string := match k with KS s => s | KI z => int_str z end.

(* json.dumps: the keys become strings *)
Fixpoint dumps (v : pv) : result json :=
  match v with
  | VNull => Ok JNull
  | VBool b => Ok (JBool b)
  | VNum q => Ok (JNum q)
  | VStr s => Ok (JStr s)
  | VList l => do js <- (fix go l := match l with [] => Ok [] | x :: r => do j <- dumps x; do js <- go r; Ok (j :: js) end) l; Ok (JArr js)
  | VDict d => do js <- (fix go d := match d with [] => Ok [] | (k, x) :: r => do j <- dumps x; do js <- go r; Ok ((key_str k, j) :: js) end) d; Ok (JObj js)
  | VUnit _ | VOther => Err TypeError
  end.
(* json.loads: the last of the values of repeated keys *)
Fixpoint loads (j : json) : pv :=
  match j with
  | JNull => VNull
  | JBool b => VBool b
  | JNum q => VNum q
  | JStr s => VStr s
  | JArr l => VList (map loads l)
  | JObj d => VDict (map (fun kv => (KS (fst kv), snd kv)) (dict_of (map (fun kv => (fst kv, loads (snd kv))) d)))
  end.

(* ---------------- the file system ---------------- *)

Definition path := list string.
(* A directory or a file, with a JSON document or (None) with something else, such as nothing. *)
Inductive node := NDir | NFile (c : option json).
Definition fs := path -> option node.
Definition path_eqb (a b : path) : bool := strings_eqb a b.
Definition fs_set (f : fs) (p : path) (n : node) : fs := fun q => if path_eqb q p then Some n else f q.

(* How the disk behaves while saving. *)
Inductive disk := DFine | DNoDir | DNoOpen | DNoWrite.

(* os.makedirs: the missing directories are created from the first one *)
Fixpoint makedirs (f : fs) (done todo : path) : fs * result unit :=
  match todo with
  | [] => (f, Ok tt)
  | x :: r =>
    let p := done ++ [x] in
    match f p with
    | Some NDir => makedirs f p r
    | Some (NFile _) => (f, Err GenericException)         (* NotADirectoryError *)
    | None => makedirs (fs_set f p NDir) p r
    end
  end.

(* ---------------- models ---------------- *)

(* The strings of the time units, and the units they are read as. *)
Record unit_text := mkUnitText { ut_str : tunit -> string; ut_parse : string -> result tunit }.

(* A model: its class (if the fit is implemented, if it is parametric, if it can be built without arguments), and
   its state. *)
Record mclass := mkClass { c_fit : bool; c_parametric : bool; c_buildable : bool }.
Record pmodel := mkPModel { pm_class : mclass; pm_fitted : bool; pm_data : dict pv }.

(* The checks before a call see its resolution, its labels and its context labels. *)
Definition the_resolution (v : pv) : option res :=
  match v with VUnit u => Some (RUnit u) | VNull => None | _ => Some RVar end.
Fixpoint all_strings (l : list pv) : option (list string) :=
  match l with
  | [] => Some []
  | VStr s :: r => match all_strings r with Some t => Some (s :: t) | None => None end
  | _ :: _ => None
  end.
Definition the_labels (v : pv) : option (list string) := match v with VList l => all_strings l | _ => None end.
Definition truthy (v : pv) : bool :=
  match v with
  | VNull => false | VBool b => b | VNum q => negb (qeqb q q0) | VStr s => negb (String.eqb s "")
  | VList l => match l with [] => false | _ => true end
  | VDict l => match l with [] => false | _ => true end
  | VUnit _ | VOther => true
  end.
Definition as_model (m : pmodel) : model (dict pv) :=
  mkModel (c_fit (pm_class m)) (c_parametric (pm_class m))
    (match dget "context_data_labels" (pm_data m) with Some v => truthy v | None => false end) (pm_fitted m)
    (match dget "resolution" (pm_data m) with Some v => Some (the_resolution v) | None => None end)
    (match dget "data_labels" (pm_data m) with Some v => Some (the_labels v) | None => None end) (pm_data m).

(* str() of a resolution: a unit, 'variable' or None *)
Definition res_str (ut : unit_text) (v : pv) : string :=
  match v with VUnit u => ut_str ut u | VStr s => s | _ => "None"%string end.

(* models/base.py 132-145: the file is opened first, and is there, empty, if something goes wrong later *)
Definition write_data (d : disk) (f : fs) (p : path) (j : result json) : fs * result unit :=
  match d with
  | DNoOpen => (f, Err GenericException)
  | _ =>
    let f1 := fs_set f p (NFile None) in
    match j with
    | Err x => (f1, Err x)
    | Ok j => match d with DNoWrite => (f1, Err GenericException) | _ => (fs_set f p (NFile (Some j)), Ok tt) end
    end
  end.
Definition dump_data (data : dict pv) : result json := dumps (VDict (map (fun kv => (KS (fst kv), snd kv)) data)).

(* models/base.py 111-147; the data of the model are changed and put back *)
Definition save (ut : unit_text) (d : disk) (m : pmodel) (p : path) (f : fs) : pmodel * fs * result unit :=
  if negb (c_parametric (pm_class m)) then (m, f, Err TypeError)
  else if c_fit (pm_class m) && negb (pm_fitted m) then (m, f, Err NotFittedError)
  else match p with
  | [] => (m, f, Err ValueError)
  | _ =>
    match f p with
    | Some _ => (m, f, Err ValueError)
    | None =>
      match (match d with DNoDir => (f, Err GenericException) | _ => makedirs f [] p end) with
      | (f, Err x) => (m, f, Err x)
      | (f, Ok _) =>
        let r := dget "resolution" (pm_data m) in
        let data1 := match r with Some v => dset "resolution" (VStr (res_str ut v)) (pm_data m) | None => pm_data m end in
        let '(f, o) := write_data d f (p ++ ["data.json"%string]) (dump_data data1) in
        let data2 := if dmem "resolution" data1 then match r with Some v => dset "resolution" v data1 | None => data1 end else data1 in
        (mkPModel (pm_class m) (pm_fitted m) data2, f, o)
      end
    end
  end.

(* a dictionary with string keys *)
Fixpoint string_keys (d : list (key * pv)) : option (dict pv) :=
  match d with
  | [] => Some []
  | (KS k, v) :: r => match string_keys r with Some t => Some ((k, v) :: t) | None => None end
  | _ => None
  end.
Definition read_json (f : fs) (p : path) : result json :=
  match f p with
  | None | Some NDir => Err GenericException                 (* FileNotFoundError, IsADirectoryError *)
  | Some (NFile None) => Err ValueError                       (* JSONDecodeError *)
  | Some (NFile (Some j)) => Ok j
  end.
(* models/base.py 87-109 *)
Definition load (ut : unit_text) (c : mclass) (f : fs) (p : path) : result pmodel :=
  if negb (c_buildable c) then Err ValueError
  else
    do j <- read_json f (p ++ ["data.json"%string]);
    match loads j with
    | VDict d =>
      match string_keys d with
      | Some data =>
        match dget "resolution" data with
        | None => Ok (mkPModel c true data)
        | Some (VStr s) => do u <- ut_parse ut s; Ok (mkPModel c true (dset "resolution" (VUnit u) data))
        | Some _ => Err TypeError
        end
      | None => Err TypeError
      end
    | _ => Err TypeError
    end.

(* ---------------- periodic averages ---------------- *)

Fixpoint zkeys (d : list (key * pv)) : result (list (key * pv)) :=
  match d with
  | [] => Ok []
  | (k, v) :: r => do z <- match k with KI z => Ok z | KS s => str_int s end; do t <- zkeys r; Ok ((KI z, v) :: t)
  end.
Fixpoint zkeys_all (d : list (key * pv)) : result (list (key * pv)) :=
  match d with
  | [] => Ok []
  | (k, VDict a) :: r => do b <- zkeys a; do t <- zkeys_all r; Ok ((k, VDict b) :: t)
  | _ => Err AttributeError
  end.
(* models/forecasters.py 464-470: the keys of the averages of each label back to integers (which are distinct, if
   they are written by str() as above) *)
Definition pf_load (ut : unit_text) (c : mclass) (f : fs) (p : path) : result pmodel :=
  do m <- load ut c f p;
  match dget "averages" (pm_data m) with
  | Some (VDict d) => do a <- zkeys_all d; Ok (mkPModel c (pm_fitted m) (dset "averages" (VDict a) (pm_data m)))
  | Some _ => Err TypeError
  | None => Err KeyError
  end.

Definition avg_dict (a : list (Z * Qc)) : list (key * pv) := map (fun kv => (KI (fst kv), VNum (snd kv))) a.
(* models/base.py 72-78, 182-197 and models/forecasters.py 482-526: what a fitted PeriodicAverageForecaster keeps *)
Definition pf_data (id : string) (at_ : Qc) (u : tunit) (labels : list string) (m : pf_params) : dict pv :=
  [("id", VStr id); ("resolution", VUnit u); ("data_labels", VList (map VStr labels));
   ("periodicities", VDict (map (fun kv => (KS (fst kv), VNum (qz (fst (fst (snd kv)))))) (pf_labels m)));
   ("windows", VDict (map (fun kv => (KS (fst kv), VNum (qz (snd (fst (snd kv)))))) (pf_labels m)));
   ("averages", VDict (map (fun kv => (KS (fst kv), VDict (avg_dict (snd (snd kv))))) (pf_labels m)));
   ("dst_affected", VBool (pf_dst m)); ("window", VNum (qz (pf_window m))); ("fitted_at", VNum at_)]%string.
(* models/reconstructors.py 406-407, 428: and a PeriodicAverageReconstructor *)
Definition pa_data (id : string) (at_ : Qc) (u : tunit) (labels : list string) (m : pa_params) : dict pv :=
  [("id", VStr id); ("resolution", VUnit u); ("data_labels", VList (map VStr labels));
   ("periodicity", VNum (qz (pa_period m))); ("dst_affected", VBool (pa_dst m)); ("averages", VDict (avg_dict (pa_averages m))); ("fitted_at", VNum at_)]%string.
(* models/reconstructors.py 454: self.data['averages'][periodicity_index] *)
Definition average_in (data : dict pv) (k : Z) : option Qc :=
  match dget "averages" data with
  | Some (VDict d) => match kget (KI k) d with Some (VNum q) => Some q | _ => None end
  | _ => None
  end.
(* models/reconstructors.py 432-465, for a model with the given data *)
Definition pa_predict_data (c : cal) (dst : string -> Qc -> Z) (p : Z) (da : bool) (data : dict pv) : series -> nat -> nat -> result pdata :=
  pa_predict_with c dst p da (average_in data).

(* ---------------- nested models ---------------- *)

(* An anomaly detector based on other models: one, or one for each label (with context data). *)
Record detector := mkDetector { dt_self : pmodel; dt_one : pmodel; dt_models : dict pmodel }.
Definition inner_path (p : path) (lb : string) : path := p ++ [(lb ++ "_model")%string].
Fixpoint save_all (ut : unit_text) (d : disk) (l : list (path * pmodel)) (f : fs) : fs * result unit :=
  match l with
  | [] => (f, Ok tt)
  | (p, m) :: r => match save ut d m p f with (_, f, Ok _) => save_all ut d r f | (_, f, Err x) => (f, Err x) end
  end.
(* models/anomaly_detectors.py 207-217 (none of the models is changed by saving it) *)
Definition save_detector (ut : unit_text) (d : disk) (t : detector) (p : path) (f : fs) : fs * result unit :=
  match save ut d (dt_self t) p f with
  | (_, f, Err x) => (f, Err x)
  | (_, f, Ok _) =>
    match dget "with_context" (pm_data (dt_self t)) with
    | None => (f, Err KeyError)
    | Some v =>
      if truthy v then save_all ut d (map (fun kv => (inner_path p (fst kv), snd kv)) (dt_models t)) f
      else save_all ut d [(p ++ ["model"%string], dt_one t)] f
    end
  end.
(* models/anomaly_detectors.py 191-205: load is the one of the class of the inner models; one model, or one for
   each label of the data *)
Inductive inner := OneModel (m : pmodel) | ModelOf (ms : dict pmodel).
Definition load_detector (ut : unit_text) (c : mclass) (load_inner : fs -> path -> result pmodel) (f : fs) (p : path) : result (pmodel * inner) :=
  do m <- load ut c f p;
  match dget "with_context" (pm_data m) with
  | None => Err KeyError
  | Some v =>
    if truthy v then
      match dget "data_labels" (pm_data m) with
      | None => Err KeyError
      | Some l =>
        match the_labels l with
        | None => Err TypeError
        | Some ls => do ms <- mapM (fun lb => do i <- load_inner f (inner_path p lb); Ok (lb, i)) ls; Ok (m, ModelOf (dict_of ms))
        end
      end
    else do i <- load_inner f (p ++ ["model"%string]); Ok (m, OneModel i)
  end.
