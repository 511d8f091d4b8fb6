(** Model of the output of fields: src/tdyio.c:361-463, 479-507, 570-704, with the
    field getters of src/tdycore.c:1748-1862 it uses.

    Vectors are lists.  [ao] holds the natural number of every cell (cells in the
    global order), [nls] the numbers of cells of the processes, as in Scatter.v;
    on one process PETSc keeps no such order and the conversion is a copy.
    HDF5 files are association lists from the time as printed and the variable
    name to the stored values: VecView replaces a dataset of the same name.  The
    XML file is a list of opening tags, text and closing tags.

    Meshes managed by TDycore itself have no diagnostics (tdycore.c:756-758), so
    TDyIOWriteVec refuses them and they are left out; for DMPlex meshes
    TDySetDM always asks for the natural order (tdycore.c:683), so DMGetUseNatural
    is true.  Exodus output is only modelled as far as the vectors passed to it. *)
From Coq Require Import List Arith ZArith Lia Bool String.
From Verif Require Import Prelude Arrays UGrid Scatter.
Import ListNotations.
Local Open Scope nat_scope.

(** ** Vectors *)
(** VecStrideGather: refuses a target that does not fit. *)
Definition StrideGather {A} (bs start : nat) (x s : list A) : outcome (list A) :=
  if negb (start <? bs) then Err
  else if negb (List.length x =? List.length s * bs) then Err
  else for_ (List.length s) (fun i s => do v <- rd x (i * bs + start); wr s i v) s.

(** TDyGlobalToNatural for a DMPlex mesh, tdydiscretization.c:190-222: on one
    process VecCopy, which refuses vectors of different lengths; otherwise the
    distribution's index pairs. *)
Inductive processes := OneProcess | ManyProcesses (nls : list nat).
Definition GlobalToNatural {A} (pr : processes) (ndof : nat) (ao : list Z) (x y : list A) : outcome (list A) :=
  match pr with
  | OneProcess => if List.length x =? List.length y then Ok x else Err
  | ManyProcesses nls => global_to_natural ndof ao nls x y
  end.

(** VAR_PRESSURE, DIAG_LIQUID_SATURATION, DIAG_LIQUID_MASS: include/private/tdycoreimpl.h:19-25. *)
Definition VAR_PRESSURE : nat := 0.
Definition DIAG_LIQUID_SATURATION : nat := 0.
Definition DIAG_LIQUID_MASS : nat := 1.
(** The two diagnostics of a cell stand side by side, tdycore.c:764-787. *)
Definition num_diag : nat := 2.

(** TDyCreateDiagnosticVector, tdycore.c:1687-1707: new vectors are zero. *)
Definition CreateDiagnosticVector {A} (zero : A) (diag : list A) : list A := repeat zero (List.length diag / num_diag).
(** TDyCreateGlobalVector. *)
Definition CreateGlobalVector {A} (zero : A) (ndof : nat) (ao : list Z) : list A := repeat zero (List.length ao * ndof).

(** TDyGetLiquidSaturation and TDyGetLiquidMass, tdycore.c:1795-1825. *)
Definition GetDiagnostic {A} (zero : A) (pr : processes) (ndof : nat) (ao : list Z) (index : nat) (diag out : list A) : outcome (list A) :=
  do tmp <- StrideGather num_diag index diag (CreateDiagnosticVector zero diag);
  GlobalToNatural pr ndof ao tmp out.
Definition GetLiquidSaturation {A} (zero : A) pr ndof ao (diag out : list A) :=
  GetDiagnostic zero pr ndof ao DIAG_LIQUID_SATURATION diag out.
Definition GetLiquidMass {A} (zero : A) pr ndof ao (diag out : list A) :=
  GetDiagnostic zero pr ndof ao DIAG_LIQUID_MASS diag out.

(** TDyGetLiquidPressure, tdycore.c:1850-1862, with ExtractPrognosticField, 1827-1843. *)
Definition GetLiquidPressure {A} (zero : A) (pr : processes) (ndof : nat) (ao : list Z) (soln_prev out : list A) : outcome (list A) :=
  do tmp <- StrideGather ndof VAR_PRESSURE soln_prev (CreateGlobalVector zero ndof ao);
  GlobalToNatural pr ndof ao tmp out.

(** ** Printed times *)
(** What %11.5e prints: sign, six digits, decimal exponent. *)
Record printed := Printed { pneg : bool; pdigits : Z; pexp : Z }.
Definition printed_eqb (a b : printed) : bool :=
  Bool.eqb (pneg a) (pneg b) && (pdigits a =? pdigits b)%Z && (pexp a =? pexp b)%Z.
(** d.ddddde+dd: eleven characters, one more for a sign and for a third digit of
    the exponent. *)
Definition width (p : printed) : nat :=
  11 + (if pneg p then 1 else 0) + (if (Z.abs (pexp p) >=? 100)%Z then 1 else 0).

(** sprintf into a buffer of [size] characters. *)
Definition sprintf (size len : nat) : outcome unit := if len + 1 <=? size then Ok tt else UB.

(** The names of the variables, TDyIOCreate, tdyio.c:24-26. *)
Definition name_pressure : string := "LiquidPressure"%string.
Definition name_saturation : string := "LiquidSaturation"%string.

(** TDyIOWriteAsciiViewer, 570-582: the file name is <time>_<name>.txt in [char word[32]]. *)
Definition ascii_name (t : printed) (name : string) : outcome unit :=
  sprintf 32 (width t + 1 + String.length name + 4).

(** ** The XML file *)
Inductive tag := Xdmf | Domain | DataItem | Grid | Topology | Geometry | Attribute.
(** What the tags carry: sizes, names, references. *)
Inductive info := NoInfo | Dims (l : list Z) | Named (s : string) | Elements (s : string) (n : Z)
                | Entry (t : printed) (name : string).
Inductive token := TOpen (g : tag) (i : info) | TText (i : info) | TClose (g : tag).
Definition element (g : tag) (i : info) (inner : list token) : list token := TOpen g i :: inner ++ [TClose g].

(** The names of cell shapes, lines 588-595. *)
Definition cellMap (i : Z) : outcome string :=
  if (i <? 0)%Z || (25 <=? i)%Z then UB
  else match Z.to_nat i with
       | 0 => Ok "0"%string | 1 => Ok "Polyvertex"%string | 2 => Ok "Polyline"%string | 6 => Ok "Triangle"%string
       | 8 => Ok "Quadrilateral"%string | 12 => Ok "Tetrahedron"%string | 18 => Ok "Wedge"%string | 24 => Ok "Hexahedron"%string
       | _ => UB (* a null pointer printed with %s *)
       end.

(** TDyIOWriteXMFHeader, 584-646. *)
Definition XMFHeader (numCell dim numVert numCorner : Z) : outcome (list token) :=
  do shape <- cellMap (dim * numCorner)%Z;
  Ok ([TOpen Xdmf NoInfo; TOpen Domain (Named "domain"%string)]
      ++ element DataItem (Dims [numCell; numCorner]) [TText (Named "/viz/topology/cells"%string)]
      ++ element DataItem (Dims [numVert; dim]) [TText (Named "/geometry/vertices"%string)]
      ++ [TOpen Grid (Named "domain"%string)]
      ++ element Topology (Elements shape numCell) (element DataItem NoInfo [TText (Named "cells"%string)])
      ++ element Geometry (Named (if (2 <? dim)%Z then "XYZ"%string else "XY"%string)) (element DataItem NoInfo [TText (Named "vertices"%string)])).

(** TDyIOWriteXMFAttribute, 648-683. *)
Definition XMFAttribute (name : string) (t : printed) (numCell : Z) : list token :=
  element Attribute (Entry t name)
    (element DataItem (Dims [1; numCell; 1]%Z)
       (element DataItem (Dims [3; 3]%Z) [TText (Dims [0; 0; 0; 1; 1; 1; 1; numCell; 1]%Z)]
        ++ element DataItem (Dims [1; numCell; 1]%Z) [TText (Entry t name)])).

(** TDyIOWriteXMFFooter, 685-696. *)
Definition XMFFooter : list token := [TClose Grid; TClose Domain; TClose Xdmf].

(** ** The run *)
Inductive format := NullFormat | AsciiFormat | ExodusFormat | HDF5Format.

(** The mesh as TDyIOSetMode sees it: its dimension, the numbers of points of
    depth 0, 1, ... and the numbers of vertices of the cells. *)
Record mesh := Mesh { mdim : nat; by_depth : list nat; corners : list nat }.
(** DMPlexGetHeightStratum: no points above the highest. *)
Definition height_count (m : mesh) (h : nat) : nat :=
  if h <? List.length (by_depth m) then nth (List.length (by_depth m) - 1 - h) (by_depth m) 0 else 0.
(** TDyGetNumberOfCellVertices, tdycore.c:1478-1502: the error of a mixed mesh,
    PETSC_ERR_SUP, is returned as if it were the number. *)
Fixpoint corners_from (nq : Z) (qs : list nat) : Z :=
  match qs with
  | [] => nq
  | q :: qs => let nq := if (nq =? -1)%Z then Z.of_nat q else nq in
               if (nq =? Z.of_nat q)%Z then corners_from nq qs else 56%Z
  end.
Definition NumberOfCellVertices (m : mesh) : Z := corners_from (-1) (corners m).

Record io (A : Type) := Io { fmt : format; xmf : option (list token); h5 : list (printed * string * list A) }.
Arguments Io {A}. Arguments fmt {A}. Arguments xmf {A}. Arguments h5 {A}.

(** fopen(..., "a"). *)
Definition append (f : option (list token)) (ts : list token) : option (list token) :=
  Some (match f with Some l => l ++ ts | None => ts end).

(** TDyIOSetMode, 361-397, on the process that writes the file; [n] is the
    global size of the solution. *)
Definition SetMode {A} (m : mesh) (n : nat) (f : format) (s : io A) : outcome (io A) :=
  match f with
  | HDF5Format =>
      do hd <- XMFHeader (Z.of_nat n) (Z.of_nat (mdim m)) (Z.of_nat (height_count m 3)) (NumberOfCellVertices m);
      Ok (Io f (Some hd) [])
  | _ => Ok (Io f (xmf s) (h5 s))
  end.

(** The dataset of a variable at a time, and VecView into the file. *)
Definition same_entry (t : printed) (name : string) {A} (e : printed * string * list A) : bool :=
  printed_eqb (fst (fst e)) t && String.eqb (snd (fst e)) name.
Definition store {A} (t : printed) (name : string) (v : list A) (f : list (printed * string * list A)) :=
  filter (fun e => negb (same_entry t name e)) f ++ [(t, name, v)].
Definition fetch {A} (t : printed) (name : string) (f : list (printed * string * list A)) : option (list A) :=
  option_map snd (find (same_entry t name) f).

(** TDyIOWriteHDF5Var, 479-507; the printed time goes to [char word[32]]. *)
Definition WriteHDF5Var {A} (name : string) (t : printed) (v : list A) (s : io A) : outcome (io A) :=
  do _ <- sprintf 32 (width t);
  Ok (Io (fmt s) (append (xmf s) (XMFAttribute name t (Z.of_nat (List.length v)))) (store t name v (h5 s))).

(** TDyIOWriteVec, 399-463: the new state and the vectors passed to the viewer. *)
Definition WriteVec {A} (zero : A) (pr : processes) (ndof : nat) (ao : list Z) (t : printed) (p diag : list A) (s : io A)
  : outcome (io A * list (string * list A)) :=
  do sat <- GetLiquidSaturation zero pr ndof ao diag (CreateDiagnosticVector zero diag);
  match fmt s with
  | AsciiFormat =>
      do _ <- ascii_name t name_pressure; do _ <- ascii_name t name_saturation;
      Ok (s, [(name_pressure, p); (name_saturation, sat)])
  | ExodusFormat => Ok (s, [(name_pressure, p); (name_saturation, sat)])
  | HDF5Format =>
      do pn <- GlobalToNatural pr ndof ao p (CreateGlobalVector zero ndof ao);
      do sn <- GlobalToNatural pr ndof ao sat (CreateGlobalVector zero ndof ao);
      do s <- WriteHDF5Var name_pressure t pn s;
      do s <- WriteHDF5Var name_saturation t sn s;
      Ok (s, [(name_pressure, pn); (name_saturation, sn)])
  | NullFormat => Err
  end.

(** TDyIODestroy, 698-704, called by each of the [np] processes. *)
Fixpoint Destroy (np : nat) (f : option (list token)) : option (list token) :=
  match np with 0 => f | S np => Destroy np (append f XMFFooter) end.

(** A run: the calls between TDyIOCreate and TDyIODestroy. *)
Inductive call (A : Type) := CSetMode (f : format) | CWrite (t : printed) (p diag : list A).
Arguments CSetMode {A}. Arguments CWrite {A}.
Definition exec {A} (zero : A) (pr : processes) (m : mesh) (ndof : nat) (ao : list Z) (c : call A) (s : io A) : outcome (io A) :=
  match c with
  | CSetMode f => SetMode m (List.length ao * ndof) f s
  | CWrite t p diag => do r <- WriteVec zero pr ndof ao t p diag s; Ok (fst r)
  end.
Fixpoint run {A} (zero : A) (pr : processes) (m : mesh) (ndof : nat) (ao : list Z) (cs : list (call A)) (s : io A) : outcome (io A) :=
  match cs with [] => Ok s | c :: cs => do s <- exec zero pr m ndof ao c s; run zero pr m ndof ao cs s end.
(** TDyIOCreate; [old] is what out.xmf holds from an earlier run. *)
Definition Create {A} (old : option (list token)) : io A := Io NullFormat old [].
