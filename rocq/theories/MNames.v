(** Model of composite/builder.go:20-57 and 89-118 with composite/layer.go:213-245: the layers of
    the tree that New makes, with their names, and its rectangle. *)
From Coq Require Import String.
From Verif Require Import Base MRect MConfig MLayer MBlend MRender MTile MLoad MPipe.
Close Scope string_scope.
Open Scope Z_scope.

(** composite/layer.go:32-69: the fields of a layer that builder.go:20-51 sets: the name, Folder,
    FolderOpen, MaskDefaultColor, and those that the renderer reads. *)
Record battr := BA { ba_name : bytes; ba_folder : bool; ba_open : bool; ba_mask : Z; ba_attr : lattr }.
(** A layer and its children. For the pointers Parent, Clip and ClippedBy see MLTree and MPipe. *)
Inductive btree := BT (a : battr) (kids : list btree).

(** layer.go:62-65 of package psd *)
Definition lFolderIsOpen (l : lrec) : bool := l_sdtype l =? 1.

Section builder.
  (** Encodings of golang.org/x/text: [decodeString e s]: e.NewDecoder().String(s), [None]: an
      error. [nop]: encoding.Nop. [detect]: the detector, the [n]-th call; it may return nil. *)
  Context {Enc : Type}.
  Variable nop : Enc.
  Variable decodeString : Enc -> bytes -> option bytes.
  Variable detect : option (nat -> bytes -> option Enc).

  (** builder.go:13-18; [b_calls]: the arguments of the calls of the detector so far *)
  Record builder := Bld { b_rect : rect; b_enc : option Enc; b_calls : list bytes }.

  (** builder.go:89-98 *)
  Fixpoint gatherLayerName (l : MLayer.layer) : list bytes :=
    match l with MLayer.Layer _ ls => flat_map (fun c => l_mbcs (lay_rec c) :: gatherLayerName c) ls end.

  (** builder.go:100-118 *)
  Definition getLayerNameEncoding (img : list MLayer.layer) (b : builder) : builder * option Enc :=
    match b_enc b with
    | Some e => (b, Some e)
    | None =>
        let s := flat_map (fun c => l_mbcs (lay_rec c) :: gatherLayerName c) img in
        match s, detect with
        | _ :: _, Some f =>
            let e := f (length (b_calls b)) (concat s) in
            (Bld (b_rect b) e (b_calls b ++ [concat s]), e)
        | _, _ => (Bld (b_rect b) (Some nop) (b_calls b), Some nop)
        end
    end.

  (** builder.go:23-32. [None]: a method of a nil interface is called, a panic. *)
  Definition layerName (img : list MLayer.layer) (l : lrec) (b : builder) : option (builder * bytes) :=
    match l_uname l, l_mbcs l with
    | [], _ :: _ =>
        match getLayerNameEncoding img b with
        | (_, None) => None
        | (b, Some e) => Some (b, match decodeString e (l_mbcs l) with Some n => n | None => l_mbcs l end)
        end
    | u, _ => Some (b, u)
    end.

  (** builder.go:20-57. [cs]: the copies of the layers, by their SeqID, see [MPipe.treeOf]. *)
  Fixpoint buildLayer (img : list MLayer.layer) (cs : list player) (l : MLayer.layer) (b : builder) : option (builder * btree) :=
    match l with
    | MLayer.Layer r ls =>
        match nth_error cs (Z.to_nat (l_seq r)), layerName img r b with
        | Some c, Some (b, n) =>
            match (fix loop (ls : list MLayer.layer) (b : builder) : option (builder * list btree) :=
                     match ls with
                     | [] => Some (b, [])
                     | l :: ls =>
                         match buildLayer img cs l b with
                         | Some (b, t) => match loop ls b with Some (b, ts) => Some (b, t :: ts) | None => None end
                         | None => None
                         end
                     end) ls (Bld (runion (b_rect b) (prect c)) (b_enc b) (b_calls b)) with
            | Some (b, ts) => Some (b, BT (BA n (lFolder r) (lFolderIsOpen r) (pmdc c) (buildAttr r c)) ts)
            | None => None
            end
        | _, _ => None
        end
    end.
  Fixpoint buildLayers (img : list MLayer.layer) (cs : list player) (ls : list MLayer.layer) (b : builder) : option (builder * list btree) :=
    match ls with
    | [] => Some (b, [])
    | l :: ls =>
        match buildLayer img cs l b with
        | Some (b, t) => match buildLayers img cs ls b with Some (b, ts) => Some (b, t :: ts) | None => None end
        | None => None
        end
    end.
  (** layer.go:213-245: the layers below the root, Tree.Rect and the calls of the detector *)
  Definition newLayers (img : list MLayer.layer) (cs : list player) (canvas : rect) : option (list btree * rect * list bytes) :=
    match buildLayers img cs img (Bld ZR None []) with
    | Some (b, ts) => Some (ts, rintersect (b_rect b) canvas, b_calls b)
    | None => None
    end.
End builder.

(** layer.go:206-208: the detector that New uses when none is given *)
Definition defaultDetector {Enc} (nop : Enc) (d : option (nat -> bytes -> option Enc)) : option (nat -> bytes -> option Enc) :=
  match d with Some f => Some f | None => Some (fun _ _ => Some nop) end.
