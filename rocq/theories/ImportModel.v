(** ImportModel.v — importing pages of another PDF: gopdf.go:1522-1676 (ImportPage, ImportPageStream, ImportPagesFromSource,
    UseImportedTemplate) and 1688-1703 (ImportObjects, ImportTemplates), on top of DocModel.v.  The library gofpdi, which reads
    the other file, is not part of /repo: what its calls return is a parameter ([fpage]). *)
From Coq Require Import QArith.
From Verif Require Import Base DocModel PropDoc.
Open Scope Z_scope.

(** What gofpdi answers for one page of the source: sizes[pageno][box] in points (None: no such box), and, when told that the
    next object is number [n]: the names and numbers of the templates (PutFormXobjects), the objects (GetImportedObjects), and
    the template's name and vertical shift for a width and height in points (UseTemplate). *)
Record fpage := { fp_size : option (Q * Q); fp_tpls : Z -> list (bytes * Z); fp_objs : Z -> list (Z * bytes);
                  fp_name : bytes; fp_ty : Q -> Q -> Q }.
(** The document and procset.ImportedTemplateIds (procset_obj.go:20, last assignment first). *)
Record idoc := { i_gp : gp; i_tpls : list (bytes * Z) }.
Definition on_gp (d : idoc) (r : gp * result) : idoc * result := ({| i_gp := fst r; i_tpls := i_tpls d |}, snd r).

(** gopdf.go:1524-1550 ImportPage (and 1555-1581 ImportPageStream); 1652-1670 inside ImportPagesFromSource. *)
Definition importPage (p : fpage) (d : idoc) : idoc :=
  let startObjID := getNextObjectID (i_gp d) in
  {| i_gp := fst (step (i_gp d) (Do (ImportObjects (fp_objs p startObjID) startObjID))); i_tpls := fp_tpls p startObjID ++ i_tpls d |}.
(** 1598-1603 UseImportedTemplate; [k]: points per unit. *)
Definition useTemplate (k : Q) (p : fpage) (w h : Q) (d : idoc) : idoc * result :=
  on_gp d (step (i_gp d) (Do (UseTemplate (fp_name p) (fp_ty p (w * k)%Q (h * k)%Q)))).
(** 1636-1673: the loop over the pages; the sizes, in points, are handed over as if they were units. *)
Fixpoint importPages (k : Q) (src : list fpage) (d : idoc) : idoc * result :=
  match src with
  | [] => (d, Ok)
  | p :: r =>
      match fp_size p with
      | None => (d, Err)
      | Some (w, h) =>
          match on_gp d (step (i_gp d) (AddPage None)) with
          | (d, Panic) => (d, Panic)
          | (d, _) => match useTemplate k p w h (importPage p d) with
                      | (d, Panic) => (d, Panic)
                      | (d, _) => importPages k r d
                      end
          end
      end
  end.
Inductive iop :=
| Call (o : op)                        (* any call of DocModel *)
| ImportPage (p : fpage)               (* ImportPage, ImportPageStream *)
| ImportPages (src : list fpage).      (* ImportPagesFromSource *)
Definition istep (k : Q) (d : idoc) (o : iop) : idoc * result :=
  match o with
  | Call (Start c) => ({| i_gp := start c (i_gp d); i_tpls := [] |}, Ok)
  | Call o => on_gp d (step (i_gp d) o)
  | ImportPage p => (importPage p d, Ok)
  | ImportPages src => importPages k src d
  end.
Definition irun (k : Q) (d : idoc) (l : list iop) : idoc := fold_left (fun d o => fst (istep k d o)) l d.
Definition istart (c : config) : idoc := {| i_gp := start c zero_gp; i_tpls := [] |}.
