(** Model of src/logic/network/networkloader.py: where a network file is taken from and which parser reads it.
    Simplified: files are their lines; a file that exists can be read, and the temporary directory can be
    written to and contains no directory with the name of the file; os.path.abspath (threephaseparser.py:34) is
    the identity, as the file of a name does not depend on how the name is written out. *)
From Coq Require Import Reals ZArith String Ascii List Bool.
From Verif Require Import PyExc UnbalancedLine GlmText LineImpedance ThreePhase GlmReader RawParser RawText.
Import ListNotations.
Local Open Scope string_scope.
Set Implicit Arguments.

(** the file system and the network: the lines of the files, what urlopen(...).getcode() answers (None: it
    raises), what urlretrieve brings (None: it raises), tempfile.gettempdir() *)
Record world := World {
  w_file : string -> option (list string);
  w_status : string -> option Z;
  w_remote : string -> option (list string);
  w_temp : string }.
(** what the two parsers are given besides the file: the attributes of the GridLAB-D classes, the arithmetic of
    times and units, the texts' numbers, the inverse, settings.enable_line_capacitance; int and float for RAW *)
Record tools := Tools {
  t_schema : string -> option (list string);
  t_over12 : string -> pres string;
  t_mega : string -> pres string;
  t_cron : string -> pres bool;
  t_prims : prims;
  t_inv : matrix -> option matrix;
  t_cap : bool;
  t_int : string -> option Z;
  t_float : string -> option R }.
(** DxNetworkModel (threephaseparser.py) or TxNetworkModel (networkloader.py:71-79) *)
Inductive network := Three (n : net) | Single (o : onet).

(** uri.split("/")[-1], networkloader.py:25 *)
Fixpoint last_part (s : string) : string :=
  match s with
  | EmptyString => EmptyString
  | String c r => if contains "/" r then last_part r else if Ascii.eqb c "/" then r else s
  end.
(** os.path.join(dir, name) for a name without slash, 25 *)
Definition join (dir name : string) : string :=
  if (String.eqb dir "" || ends_with "/" dir)%bool then dir ++ name else dir ++ "/" ++ name.
(** the file system after the file f has been written *)
Definition written (W : world) (f : string) (l : list string) : world :=
  World (fun g => if String.eqb g f then Some l else w_file W g) (w_status W) (w_remote W) (w_temp W).
(** pull_network_file, networkloader.py:10-34.  os.remove (27-30) has no effect of its own: the file is written
    anew at once; where the name is that of a directory urlretrieve raises. *)
Definition pull (W : world) (uri : string) : pres (string * world) :=
  match w_file W uri with
  | Some _ => Ok (uri, W)
  | None =>
      if negb (prefix "http://" uri || prefix "https://" uri) then Err Raised
      else match w_status W uri with
           | None => Err Raised
           | Some c =>
               if negb (Z.eqb c 200) then Err Raised
               else let name := last_part uri in
                    if mem name [""; "."; ".."] then Err Raised
                    else match w_remote W uri with
                         | None => Err Raised
                         | Some l => let f := join (w_temp W) name in Ok (f, written W f l)
                         end
           end
  end.
(** __parse_glm_network, 55-60, with ThreePhaseParser.parse (threephaseparser.py:37-) *)
Definition load_glm (T : tools) (W : world) (f : string) : pres network :=
  do r <- read_glm (t_schema T) (t_over12 T) (t_mega T) (t_cron T) (w_file W) f;
  do ms <- read_store (t_prims T) (snd r) (fst r);
  do n <- parse_three (t_inv T) (t_cap T) ms;
  Ok (Three n).
(** __parse_RAW_network, 62-81 *)
Definition load_RAW (T : tools) (W : world) (f : string) : pres network :=
  match w_file W f with
  | None => Err Raised
  | Some l => do o <- load_raw (t_int T) (t_float T) l; Ok (Single o)
  end.
(** from_file, 41-53 *)
Definition from_file (T : tools) (W : world) (uri : string) : pres network :=
  do p <- pull W uri;
  let f := fst p in
  if contains ".glm" f then load_glm T (snd p) f
  else if contains ".RAW" f then load_RAW T (snd p) f
  else Err Raised.
