(* Vocabulary for C154: the networks of deep model bundles, by the sizes of their layers and the shapes they take and give. *)
From Coq Require Import String QArith.
From Verif Require Import Prelude BundleModel.
Local Open Scope string_scope.
Local Open Scope Z_scope.
Local Open Scope list_scope.
Local Notation length := List.length.

(* the backends a torch bundle can be asked for with *)
Definition torch_backend (b : option string) : Prop := b = None \/ In b [Some ""; Some "auto"; Some "torch"].
Definition named_activation (ps : params) : Prop := p_activation ps = None \/ In (p_activation ps) [Some "relu"; Some "gelu"; Some "tanh"].
(* optional numbers *)
Definition holds {A} (P : A -> Prop) (o : option A) : Prop := forall a, o = Some a -> P a.
Definition rates_fine (ps : params) : Prop := holds (fun q => 0 <= q)%Q (p_lr ps) /\ holds (fun q => 0 <= q)%Q (p_decay ps).
(* the hidden sizes the parameters ask for *)
Inductive hidden_asked (ps : params) : list Z -> Prop :=
| h_list l : p_hidden_sizes ps = Some (HList l) -> hidden_asked ps l
| h_int h : p_hidden_sizes ps = Some (HInt h) -> hidden_asked ps [h]
| h_dim h : p_hidden_sizes ps = None -> p_hidden_dim ps = Some h -> hidden_asked ps [h]
| h_default : p_hidden_sizes ps = None -> p_hidden_dim ps = None -> hidden_asked ps [256; 128].
(* the (inputs, outputs) of the linear layers, in order *)
Definition dense (ls : list layer) : list (nat * nat) := flat_map (fun l => match l with Linear i o => [(i, o)] | _ => [] end) ls.
Definition layers_of (n : net) : list layer := match n with Plain ls => ls | Split ls hd => ls ++ hd | _ => [] end.
Definition plain (n : net) : Prop := exists ls, n = Plain ls.
(* consecutive sizes *)
Fixpoint links (l : list nat) : list (nat * nat) := match l with a :: ((b :: _) as r) => (a, b) :: links r | _ => [] end.
(* the number of values of one row *)
Definition row_size (r : list nat) : nat := fold_right Nat.mul 1%nat r.
Definition dense_id (force : bool) : string := if force then "logreg" else "mlp".
(* [mlp] uses the hidden sizes asked for; [logreg] has none. *)
Definition sizes (force : bool) (ps : params) (hs : list Z) : Prop := if force then hs = [] else hidden_asked ps hs.
(* what the parameters of a network of convolutions must be: a known activation where one is used, a dropout at most 1 where it is *)
Definition convolutional (ps : params) (chs : list nat) (fc : Z) : Prop :=
  (chs = [] /\ fc <= 0 \/ named_activation ps) /\ (fc <= 0 \/ holds (fun q => q <= 1)%Q (p_dropout ps)) /\ rates_fine ps.
Definition image_chans (ps : params) : list nat := match p_channels ps with Some l => l | None => [32; 64]%nat end.
Definition audio_chans (ps : params) : list nat := match p_channels ps with Some l => l | None => [16; 32]%nat end.
Definition text_kernels (ps : params) : list nat := match p_kernels ps with Some l => l | None => [3; 4; 5]%nat end.
(* the width asked for: hidden_dim, else hidden_size, else the first of hidden_sizes, else 128 *)
Inductive width_asked (ps : params) : Z -> Prop :=
| w_dim h : p_hidden_dim ps = Some h -> width_asked ps h
| w_size h : p_hidden_dim ps = None -> p_hidden_size ps = Some h -> width_asked ps h
| w_sizes h l : p_hidden_dim ps = None -> p_hidden_size ps = None -> p_hidden_sizes ps = Some (HList (h :: l)) -> width_asked ps h
| w_int h : p_hidden_dim ps = None -> p_hidden_size ps = None -> p_hidden_sizes ps = Some (HInt h) -> width_asked ps h
| w_default : p_hidden_dim ps = None -> p_hidden_size ps = None -> p_hidden_sizes ps = None -> width_asked ps 128.
(* the sizes of the layers between the features and the classes *)
Inductive between (ps : params) : list nat -> Prop :=
| b_list l : p_hidden_sizes ps = Some (HList l) -> between ps (map Z.to_nat l)
| b_int h : p_hidden_sizes ps = Some (HInt h) -> between ps [Z.to_nat h]
| b_count : p_hidden_sizes ps = None ->
    between ps (repeat (match p_hidden_channels ps with Some h => h | None => 128%nat end) (Z.to_nat (match p_num_layers ps with Some k => k | None => 2 end - 1))).
Definition sage_sizes_fine (ps : params) : Prop :=
  match p_hidden_sizes ps with
  | None => True
  | Some HBad => False
  | Some (HInt h) => 0 < h /\ holds (fun k => k = 2) (p_num_layers ps)
  | Some (HList l) => Forall (fun h => 0 < h) l /\ holds (fun k => k = Z.of_nat (length l) + 1) (p_num_layers ps)
  end.
