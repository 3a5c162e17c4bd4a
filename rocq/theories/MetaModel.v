(** Model of the metadata of arrays and sources (src/aspsim/array.py 533-538, 541-552, 615, 654-670; src/aspsim/signal/sources.py) and of
    writing them to metadata_arrays.json (array.py 63-80).  The checks of the constructors' arguments are left out, they are modelled elsewhere. *)
Require Import Verif.PyBase.
Set Implicit Arguments.
Local Open Scope string_scope.

Section Meta.
(** floating point numbers *)
Variable F : Type.
(** the Python values that occur in metadata: None, booleans, integers, floats (numpy's float64 is one), strings, lists and tuples, dictionaries, and
    two kinds that json refuses: numpy arrays and numpy integers *)
Inductive pyval := PNone | PBool (b : bool) | PInt (z : Z) | PFloat (x : F) | PStr (s : string) | PList (l : list pyval) | PDict (d : list (string * pyval)) | PArr (l : list pyval) | PNpInt (z : Z).
(** what a json file holds *)
Inductive json := JNull | JBool (b : bool) | JInt (z : Z) | JFloat (x : F) | JStr (s : string) | JList (l : list json) | JObj (d : list (string * json)).
(** json.dump (array.py 80): an object of another type is refused with a TypeError *)
Fixpoint json_dump (v : pyval) : res json :=
  match v with
  | PNone => Ok JNull
  | PBool b => Ok (JBool b)
  | PInt z => Ok (JInt z)
  | PFloat x => Ok (JFloat x)
  | PStr s => Ok (JStr s)
  | PList l => l' <- (fix all l := match l with [] => Ok [] | v :: r => j <- json_dump v ;; js <- all r ;; Ok (j :: js) end) l ;; Ok (JList l')
  | PDict d => d' <- (fix all d := match d with [] => Ok [] | (k, v) :: r => j <- json_dump v ;; js <- all r ;; Ok ((k, j) :: js) end) d ;; Ok (JObj d')
  | PArr _ | PNpInt _ => Err TypeError
  end.

(** the sources of sources.py with the arguments that metadata are made of *)
Inductive source :=
| SWhite (channels : Z) (power : pyval) | SSine (channels : Z) (power frequency : pyval) | SCounter (channels : Z) (start : pyval) | SMulti (channels : Z) (power : pyval) (frequencies : list pyval)
| SBand (channels : Z) (power limits : pyval) | SMls (channels : Z) (order polynomial state : pyval) | SGold (channels : Z) (power : pyval) (order : Z)
| SOther (channels : Z).      (* Sequence (65), PulseTrain (252), AutocorrSource (363): only what Source.__init__ adds *)
Definition channels_of (s : source) : Z := match s with SWhite c _ | SSine c _ _ | SCounter c _ | SMulti c _ _ | SBand c _ _ | SMls c _ _ _ | SGold c _ _ | SOther c => c end.
(** sources.py 101-104, 135-138, 189-192, 228-231: a power that is an array is turned into a list *)
Definition power_entry (p : pyval) : pyval := match p with PArr l => PList l | v => v end.
(** sources.py 476-482 (GoldSequenceSource.set_power): the power is stored as a column, also a single number; the case of two dimensions is left out *)
Definition column_of (p : pyval) : list pyval := match p with PArr l => l | v => [v] end.
(** the attribute metadata after the constructors: sources.py 23-24 (Source), 101-104 (WhiteNoiseSource), 135-139 (SineSource), 161 (Counter), 178-193
    (MultiSineSource: a list of frequencies is turned into an array, 177-178, so it is an array in any case), 228-232 (BandlimitedNoiseSource), 405-409 (MLS:
    the argument state is not used, the attribute is always None, 405), 437-442 (GoldSequenceSource: the column is turned into a list of lists) *)
Definition source_metadata (s : source) : list (string * pyval) :=
  (("number of channels", PInt (channels_of s)) ::
   match s with
   | SWhite _ p => [("power", power_entry p)]
   | SSine _ p f => [("power", power_entry p); ("frequency", f)]
   | SCounter _ n => [("start number", n)]
   | SMulti _ p fs => [("power", power_entry p); ("frequency", PArr fs)]
   | SBand _ p l => [("power", power_entry p); ("frequency span", l)]
   | SMls _ o p _ => [("order", o); ("polynomial", p); ("start state", PNone)]
   | SGold _ p o => [("power", PList (map (fun x => PList [x]) (column_of p))); ("order", PInt o); ("sequence length", PInt (2 ^ o - 1)%Z)]
   | SOther _ => []
   end)%list.

(** an array: its class, its number of elements and of groups, whether it moves, the class of its region, its source and the attribute metadata.
    No function changes the metadata dictionary of a source after its constructor, so the copy of it in the metadata of the array stays as it is *)
Record array := mkArray { m_type : string; m_num : Z; m_groups : Z; m_dynamic : bool; m_region : option string; m_source : option source; m_meta : list (string * pyval) }.
(** array.py 533-538 (Array.__init__), for MicArray and ControllableSourceArray *)
Definition base_meta (type : string) (num groups : Z) (dynamic : bool) : list (string * pyval) :=
  [("type", PStr type); ("number", PInt num); ("number of groups", PInt groups); ("dynamic", PBool dynamic)].
Definition new_array (type : string) (num groups : Z) (dynamic : bool) : array := mkArray type num groups dynamic None None (base_meta type num groups dynamic).
(** array.py 600-615 (RegionArray.__init__): the region shape is the name of the class of the region *)
Definition new_region_array (type : string) (num groups : Z) (dynamic : bool) (region : string) : array :=
  mkArray type num groups dynamic (Some region) None (base_meta type num groups dynamic ++ [("region shape", PStr region)]).
(** array.py 668-670 (FreeSourceArray.set_source) *)
Definition set_source (a : array) (s : source) : res array :=
  if (channels_of s =? m_num a)%Z then Ok (mkArray (m_type a) (m_num a) (m_groups a) (m_dynamic a) (m_region a) (Some s) (m_meta a)) else Err AssertionError.
(** array.py 654-659 (FreeSourceArray.__init__) *)
Definition new_free_array (num groups : Z) (dynamic : bool) (s : source) : res array :=
  a <- set_source (new_array "FreeSourceArray" num groups dynamic) s ;;
  Ok (mkArray (m_type a) (m_num a) (m_groups a) (m_dynamic a) (m_region a) (m_source a) (m_meta a ++ [("source info", PDict (source_metadata s))])).
(** array.py 541-552 (Array.set_groups) *)
Definition set_groups (a : array) (groups : Z) : array := mkArray (m_type a) (m_num a) groups (m_dynamic a) (m_region a) (m_source a) (m_meta a).
(** sources.py 111-118, 239-241, 476-478 (set_power of the source of an array); the other sources have no such method *)
Definition set_power (a : array) (p : pyval) : res array :=
  s <- match m_source a with
       | Some (SWhite c _) => Ok (SWhite c p)
       | Some (SBand c _ l) => Ok (SBand c p l)
       | Some (SGold c _ o) => Ok (SGold c p o)
       | _ => Err AttributeError
       end ;;
  Ok (mkArray (m_type a) (m_num a) (m_groups a) (m_dynamic a) (m_region a) (Some s) (m_meta a)).
(** the methods of the classes of sources.py besides the constructors (Source itself defines get_samples, 27-29) *)
Definition methods (s : source) : list string :=
  match s with
  | SWhite _ _ | SBand _ _ _ | SGold _ _ _ => ["get_samples"; "set_power"]     (* 106, 111; 234, 239; 464, 476 *)
  | SSine _ _ _ | SCounter _ _ | SMulti _ _ _ | SMls _ _ _ _ => ["get_samples"] (* 141; 163; 195; 411 *)
  | SOther _ => ["get_samples"; "prepare"]                                     (* 73; 275; 379, 383: prepare only for AutocorrSource *)
  end.
(** array.py 661-663 (FreeSourceArray.reset_state): the source is replaced by a copy, and then its method reset is called; arrays without a source
    have no such method.  The result: the array, and how the call ends *)
Definition reset_state (a : array) : array * res unit :=
  match m_source a with
  | None => (a, Err AttributeError)
  | Some s => (a, if smem "reset" (methods s) then Ok tt else Err AttributeError)
  end.

(** array.py 63-80 (save_metadata and _save_metadata_arrays): what metadata_arrays.json holds; without a folder nothing is written *)
Definition save_metadata_arrays (folder : bool) (arrays : list (string * array)) : res (option json) :=
  if folder then j <- json_dump (PDict (map (fun na : string * array => (fst na, PDict (m_meta (snd na)))) arrays)) ;; Ok (Some j) else Ok None.
End Meta.
Arguments PNone {F}. Arguments PBool {F}. Arguments PInt {F}. Arguments PStr {F}. Arguments PNpInt {F}. Arguments JNull {F}. Arguments JBool {F}. Arguments JInt {F}. Arguments JStr {F}. Arguments SOther {F}. Arguments new_array {F}. Arguments new_region_array {F}.
