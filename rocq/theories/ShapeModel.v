(** * ShapeModel: encoding/json for the Go types the state files of download starling and download nordigen are made of.

    /repo/cmd/download/starling.go:49-59, 238-342 and nordigen.go:61-73, 223-293, 338-342 declare structs, maps, slices, pointers, interface{} and types with an UnmarshalJSON that
    keep what they read in a field Data. A Go value of such a type is represented by the JSON it stands for: nil is [JNull], a struct has all its fields as members, a type with
    UnmarshalJSON is its Data (its other fields are strings of it). Simplified: of members with the same name only the last is looked at ([JsonModel]); an error
    (unknown member, wrong type) is noted by the decoder and returned at the end, here it ends the reading: in both cases the command fails with that error. *)
From Verif Require Import Base Utf8 LoaderModel ConvertModel JsonModel StateModel.

Inductive shape :=
| SAny                                   (** interface{} *)
| SRaw (keys : list str)                 (** a type whose UnmarshalJSON wants these strings *)
| SPtr (s : shape)
| SList (s : shape)
| SMap (s : shape)                       (** map[string]... *)
| SStruct (fs : list (str * shape)).

Definition members (j : json) : list (str * json) := match j with JObj m => m | _ => [] end.
Definition elements (j : json) : list json := match j with JArr l => l | _ => [] end.
(** A field of a struct, an entry of a map; nil when there is none. *)
Definition get (k : str) (j : json) : json := match aget str_eqb k (members j) with Some v => v | None => JNull end.
Definition set (k : str) (v : json) (j : json) : json := JObj (aset str_eqb k v (members j)).
Definition is_null (j : json) : bool := match j with JNull => true | _ => false end.

(** the zero value of a type *)
Fixpoint zero (s : shape) : json := match s with SStruct fs => JObj (map (fun nf => (fst nf, zero (snd nf))) fs) | _ => JNull end.

Fixpoint each (f : json -> outcome json) (l : list json) : outcome (list json) :=
  match l with [] => Ok [] | v :: l' => do a <- f v; do r <- each f l'; Ok (a :: r) end.
(** decode.go object, for a map: every value is read into a new element *)
Fixpoint put_members (f : json -> outcome json) (m : list (str * json)) (l : list (str * json)) : outcome (list (str * json)) :=
  match l with [] => Ok m | (k, v) :: l' => do a <- f v; put_members f (aset str_eqb k a m) l' end.
(** decode.go object, for a struct: a value is read into the field as it is; other members are ignored, or with DisallowUnknownFields an error *)
Fixpoint put_struct (strict : bool) (fs : list (str * (json -> json -> outcome json))) (m : list (str * json)) (l : list (str * json)) : outcome (list (str * json)) :=
  match l with
  | [] => Ok m
  | (k, v) :: l' =>
      match field (map fst fs) k with
      | None => if strict then Error else put_struct strict fs m l'
      | Some n => match aget str_eqb n fs with
                  | Some f => do a <- f (match aget str_eqb n m with Some o => o | None => JNull end) v; put_struct strict fs (aset str_eqb n a m) l'
                  | None => Error
                  end
      end
  end.
(** encoding/json Decode and Unmarshal into a variable that holds [old]. The elements of a slice are read as if they were new: all of them are of a type with UnmarshalJSON, which sets all fields, or interface{}. *)
Fixpoint into (strict : bool) (s : shape) (old j : json) {struct s} : outcome json :=
  match s with
  | SAny => Ok j
  | SRaw keys => if forallb (fun k => match get_string j k with Ok _ => true | _ => false end) keys then Ok j else Error
  | SPtr s' => match j with JNull => Ok JNull | _ => into strict s' (if is_null old then zero s' else old) j end
  | SList s' => match j with JNull => Ok JNull | JArr l => do r <- each (into strict s' (zero s')) l; Ok (JArr r) | _ => Error end
  | SMap s' => match j with JNull => Ok JNull | JObj l => do r <- put_members (into strict s' (zero s')) (members old) l; Ok (JObj r) | _ => Error end
  | SStruct fs => match j with JNull => Ok old | JObj l => do r <- put_struct strict (map (fun nf => (fst nf, into strict (snd nf))) fs) (members old) l; Ok (JObj r) | _ => Error end
  end.
(** encoding/json Marshal: the fields of a struct in their order, the entries of a map and of Data by name *)
Fixpoint out (s : shape) (j : json) {struct s} : json :=
  match s with
  | SAny | SRaw _ => sort_json j
  | SPtr s' => match j with JNull => JNull | _ => out s' j end
  | SList s' => match j with JArr l => JArr (map (out s') l) | _ => JNull end
  | SMap s' => match j with JObj m => JObj (isort by_name (map (fun kv => (fst kv, out s' (snd kv))) m)) | _ => JNull end
  | SStruct fs => JObj (map (fun nf => (fst nf, out (snd nf) (get (fst nf) j))) fs)
  end.
(** utils/json.go:67-106 [LoadFromFile] into a new variable: a file that is not there leaves it as it is *)
Definition load (s : shape) (file : option str) : outcome json :=
  match file with None => Ok (zero s) | Some bytes => do j <- unmarshal_json bytes; into false s (zero s) j end.
(** utils/json.go:145-149 in [SaveToFile]: the text *)
Definition save (short : bool) (s : shape) (d : json) : outcome str := marshal_indent short (bs "  ") (out s d).
(** net.go:85-90 in [fetchFromURL] *)
Definition fetch (s : shape) (old : json) (bytes : str) : outcome json := do j <- decode_json bytes; into true s old j.
