(** cmd_image_build.go: "ocibuild image build" with its errors *)
From Coq Require Import String Ascii List Bool NArith ZArith.
From Verif.Model Require Import GoStr ImageConfig.
Import ListNotations.

Section build.
  Context {others layer : Type}.
  (** An image as ociv1tarball.Image opens it (go-containerregistry): the configuration is decoded when ConfigFile is
      called; [None] if that fails. *)
  Record base_image : Type := mkBase { bi_layers : list layer; bi_config : option (config others) }.
  (** What the rest of the world does *)
  Record files : Type := mkFiles {
    open_image : str -> option base_image;     (* fsutil.OpenImage *)
    new_tag : str -> option str;               (* name.NewTag: the tag *)
    open_layer : str -> option layer;          (* fsutil.OpenLayer *)
    empty_config : config others;              (* the configuration of empty.Image *)
    write_ok : bool                            (* whether the output takes the archive *)
  }.
  (** Errors, by the call that reports them; [Crash] is a panic.  [Done]: the tag and the image that are written. *)
  Inductive berr : Type := BBase | BTag | BLayer (name : str) | BWrite.
  Inductive build_result : Type := Built (tag : option str) (img : image others layer) | BuildErr (e : berr) | Crash.
  (** cmd_image_build.go:150-157 *)
  Fixpoint open_layers (w : files) (args : list str) : list layer + str :=
    match args with
    | [] => inl []
    | a :: args =>
        match open_layer w a with
        | None => inr a
        | Some l => match open_layers w args with inl r => inl (l :: r) | inr e => inr e end
        end
    end.
  (** :159-180 AppendLayers keeps the layers and the configuration of the base; its errors, and those of
      mutate.Config, come when the image is written.  The error of ConfigFile is ignored: configFile is nil then, and
      &configFile.Config panics. *)
  Definition finish_image (w : files) (uses : list flag_use) (tag : option str) (base : base_image) (layers : list layer) : build_result :=
    let all := bi_layers base ++ layers in
    let flags := parse_flags uses in
    match bi_config base with
    | None => if negb (is_zero flags) then Crash else BuildErr BWrite
    | Some c =>
        let c := if negb (is_zero flags) then apply_to flags c else c in
        if write_ok w then Built tag (mkImage all c) else BuildErr BWrite
    end.
  (** :132-183 RunE; [base], [tag]: the flags, empty if they are not given *)
  Definition build_command (w : files) (base tag : str) (uses : list flag_use) (args : list str) : build_result :=
    let after_base (b : base_image) :=
      let after_tag (t : option str) :=
        match open_layers w args with
        | inr name => BuildErr (BLayer name)
        | inl layers => finish_image w uses t b layers
        end in
      match tag with
      | [] => after_tag None
      | _ => match new_tag w tag with None => BuildErr BTag | Some t => after_tag (Some t) end
      end in
    match base with
    | [] => after_base (mkBase [] (Some (empty_config w)))
    | _ => match open_image w base with None => BuildErr BBase | Some b => after_base b end
    end.
End build.
Arguments base_image : clear implicits. Arguments files : clear implicits. Arguments build_result : clear implicits.
