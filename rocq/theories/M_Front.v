(** sol_train from the plan (M_Cmd) to the model that is trained: Model::Create and the calls of SetParameter. *)
From Coq Require Import String Ascii.
From Verif Require Import M_Base M_DataPoint M_Text M_Str M_Num M_Expr M_Loss M_Online M_Filter M_Save M_Param M_Cmd.
Local Open Scope list_scope.
Local Open Scope Z_scope.

(** All registered model classes, the RegisterModel lines cited at M_Param.cls_name. *)
Definition all_cls : list cls :=
  [TPerceptron; TPA; TPA1; TPA2; TOGD; TSTG; TFOBOS_L1; TPET; TRDA; TRDA_L1; TERDA_L1; TALMA2; TSOP; TAROW; TSOFS; TCW; TECCW;
   TAdaFOBOS; TAdaFOBOS_L1; TAdaFOBOS_OFS; TAdaRDA; TAdaRDA_L1; TAdaRDA_OFS; TFOFS].
(** CreateObject<Model>(name + "_model"), model.cc:26-27. *)
Definition model_of (algo : list Z) : option cls :=
  create_object (map (fun k => (full_name Model (bytes (cls_name k)), k)) all_cls) (full_name Model algo).
(** A std::string as the literal it is compared with in SetParameter (name == "..."); not code of /repo. *)
Definition literal (s : list Z) : string := string_of_list_ascii (map (fun z => ascii_of_N (Z.to_N z)) s).

Section Front.
Context {R : Type}.
Variable N : num R.
Variable stof : list Z -> parsed R.
Variable files : list Z -> option (list Z).
(** Model::Load(path), model.cc: the class, the number of classes and the members of the model; [None]:
    nullptr. *)
Variable load : list Z -> option (cls * Z * cfg (R:=R)).

(** A model that is ready to be trained; the exit status of sol_train; an exception that leaves main;
    undefined behaviour. *)
Inductive prepared : Type := Ready (k : cls) (classes : Z) (c : cfg (R:=R)) | Exits (code : Z) | Throws | Undefined.
(** The loop at sol_train.cc:64-79: only std::invalid_argument is caught. *)
Fixpoint apply_settings (k : cls) (classes : Z) (l : list (list Z * list Z)) (complete : bool) (c : cfg) : prepared :=
  match l with
  | [] => if complete then Ready k classes c else Exits 4
  | (name, value) :: r =>
    match set_parameter N stof files k classes (literal name) value c with
    | Done c1 => apply_settings k classes r complete c1
    | Invalid _ => Exits 4
    | Range _ => Throws
    | Crash => Undefined
    end
  end.
(** sol_train.cc:50-79 with model.cc:26-37, 40-52. *)
Definition prepare (p : plan) : prepared :=
  match (match t_source p with
         | FromFile path => load path
         | Create algo classes =>
           match model_of algo with
           | None => None
           | Some k => if 1 <? classes then Some (k, classes, create N k classes) else None
           end
         end) with
  | None => Exits 4
  | Some (k, classes, c) => apply_settings k classes (t_settings p) (t_complete p) c
  end.
End Front.
