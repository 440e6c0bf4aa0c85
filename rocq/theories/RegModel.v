(* Model of the registries: src/modssc/utils/registry.py with the built-in lists of src/modssc/inductive/registry.py and
   src/modssc/transductive/registry.py, src/modssc/supervised/registry.py with registry_data.py,
   src/modssc/data_augmentation/registry.py, and of src/modssc/data_loader/uri.py.  Strings are ASCII; a dictionary is a
   list of keys and values in insertion order. *)
From Coq Require Import String Ascii.
From Verif Require Import Prelude.
Local Open Scope string_scope.
Local Open Scope list_scope.

(* ---- dictionaries: d.get(k) and d[k] = v *)
Fixpoint dget {A} (d : list (string * A)) (k : string) : option A :=
  match d with [] => None | (k', v) :: r => if String.eqb k' k then Some v else dget r k end.
Fixpoint dput {A} (d : list (string * A)) (k : string) (v : A) : list (string * A) :=
  match d with [] => [(k, v)] | (k', v') :: r => if String.eqb k' k then (k', v) :: r else (k', v') :: dput r k v end.
(* sorted(...) on strings *)
Fixpoint insertS (s : string) (l : list string) : list string :=
  match l with [] => [s] | x :: r => if String.leb s x then s :: l else x :: insertS s r end.
Definition sortS (l : list string) : list string := fold_right insertS [] l.
(* ":" in s, and s.split(":") *)
Fixpoint has_colon (s : string) : bool :=
  match s with EmptyString => false | String a r => Ascii.eqb a ":" || has_colon r end.
Fixpoint split_colon (s : string) : list string :=
  match s with
  | EmptyString => [""]
  | String a r => if Ascii.eqb a ":" then "" :: split_colon r
                  else match split_colon r with p :: ps => String a p :: ps | [] => [String a ""] end
  end.

(* ---- utils/registry.py *)
Record method_ref := { mr_path : string; mr_status : string }.
Definition methods := list (string * method_ref).
(* lines 10-30 register_method_ref, for a string method_id *)
Definition register_method (reg : methods) (id path status : string) : result methods :=
  if String.eqb id "" then Err ValueError
  else if negb (has_colon path) then Err ValueError
  else
    let clash := match dget reg id with Some r => negb (String.eqb (mr_path r) path) | None => false end in
    if clash then Err ValueError
    else if negb (String.eqb status "implemented" || String.eqb status "planned") then Err ValueError
    else Ok (dput reg id {| mr_path := path; mr_status := status |}).
(* lines 33-37 available_method_ids *)
Definition available_ids (reg : methods) (available_only : bool) : list string :=
  let ids := sortS (map fst reg) in
  if available_only then filter (fun m => match dget reg m with Some r => negb (String.eqb (mr_status r) "planned") | None => false end) ids
  else ids.

Section Methods.
Variable C : Type.
Variable import_class : string -> string -> result C.            (* getattr(import_module(module), name) *)
Variable builtins : list (string * string * string).            (* the calls of register_builtin_methods *)
(* register_builtin_methods: the calls before one that raises keep their effect *)
Fixpoint register_all (calls : list (string * string * string)) (reg : methods) : methods * option exn :=
  match calls with
  | [] => (reg, None)
  | (id, path, status) :: r => match register_method reg id path status with Ok reg' => register_all r reg' | Err e => (reg, Some e) end
  end.
(* lines 40-51 load_method_class *)
Definition load_class (reg : methods) (id : string) : result C :=
  match dget reg id with
  | None => Err KeyError
  | Some r => match split_colon (mr_path r) with [m; c] => import_class m c | _ => Err ValueError end
  end.
Inductive method_call := Register (id path status : string) | Available (available_only : bool) | GetClass (id : string).
Inductive method_answer := Registered | Ids (l : list string) | Class (c : C).
(* lines 54-101: one call on the registry *)
Definition method_step (reg : methods) (c : method_call) : methods * result method_answer :=
  match c with
  | Register id path status => match register_method reg id path status with Ok reg' => (reg', Ok Registered) | Err e => (reg, Err e) end
  | Available only => let (reg', e) := register_all builtins reg in (reg', match e with Some e => Err e | None => Ok (Ids (available_ids reg' only)) end)
  | GetClass id => let (reg', e) := register_all builtins reg in
                   (reg', match e with Some e => Err e | None => match load_class reg' id with Ok c => Ok (Class c) | Err e => Err e end end)
  end.
Definition method_run (reg : methods) (cs : list method_call) : methods := fold_left (fun reg c => fst (method_step reg c)) cs reg.
End Methods.
(* inductive/registry.py lines 33-143 *)
Definition inductive_builtins : list (string * string * string) :=
  [ ("supervised", "modssc.inductive.methods.supervised:SupervisedMethod", "implemented")
  ; ("pseudo_label", "modssc.inductive.methods.pseudo_label:PseudoLabelMethod", "implemented")
  ; ("self_training", "modssc.inductive.methods.self_training:SelfTrainingMethod", "implemented")
  ; ("setred", "modssc.inductive.methods.setred:SetredMethod", "implemented")
  ; ("pi_model", "modssc.inductive.methods.pi_model:PiModelMethod", "implemented")
  ; ("fixmatch", "modssc.inductive.methods.fixmatch:FixMatchMethod", "implemented")
  ; ("comatch", "modssc.inductive.methods.comatch:CoMatchMethod", "implemented")
  ; ("defixmatch", "modssc.inductive.methods.defixmatch:DeFixMatchMethod", "implemented")
  ; ("daso", "modssc.inductive.methods.daso:DASOMethod", "implemented")
  ; ("adsh", "modssc.inductive.methods.adsh:ADSHMethod", "implemented")
  ; ("flexmatch", "modssc.inductive.methods.flexmatch:FlexMatchMethod", "implemented")
  ; ("adamatch", "modssc.inductive.methods.adamatch:AdaMatchMethod", "implemented")
  ; ("free_match", "modssc.inductive.methods.free_match:FreeMatchMethod", "implemented")
  ; ("softmatch", "modssc.inductive.methods.softmatch:SoftMatchMethod", "implemented")
  ; ("mixmatch", "modssc.inductive.methods.mixmatch:MixMatchMethod", "implemented")
  ; ("simclr_v2", "modssc.inductive.methods.simclr_v2:SimCLRv2Method", "implemented")
  ; ("mean_teacher", "modssc.inductive.methods.mean_teacher:MeanTeacherMethod", "implemented")
  ; ("meta_pseudo_labels", "modssc.inductive.methods.meta_pseudo_labels:MetaPseudoLabelsMethod", "implemented")
  ; ("temporal_ensembling", "modssc.inductive.methods.temporal_ensembling:TemporalEnsemblingMethod", "implemented")
  ; ("uda", "modssc.inductive.methods.uda:UDAMethod", "implemented")
  ; ("vat", "modssc.inductive.methods.vat:VATMethod", "implemented")
  ; ("noisy_student", "modssc.inductive.methods.noisy_student:NoisyStudentMethod", "implemented")
  ; ("co_training", "modssc.inductive.methods.co_training:CoTrainingMethod", "implemented")
  ; ("democratic_co_learning", "modssc.inductive.methods.democratic_co_learning:DemocraticCoLearningMethod", "implemented")
  ; ("deep_co_training", "modssc.inductive.methods.deep_co_training:DeepCoTrainingMethod", "implemented")
  ; ("tri_training", "modssc.inductive.methods.tri_training:TriTrainingMethod", "implemented")
  ; ("trinet", "modssc.inductive.methods.trinet:TriNetMethod", "implemented")
  ; ("s4vm", "modssc.inductive.methods.s4vm:S4VMMethod", "implemented") ].
(* transductive/registry.py lines 33-92 *)
Definition transductive_builtins : list (string * string * string) :=
  [ ("label_propagation", "modssc.transductive.methods.classic.label_propagation:LabelPropagationMethod", "implemented")
  ; ("label_spreading", "modssc.transductive.methods.classic.label_spreading:LabelSpreadingMethod", "implemented")
  ; ("laplace_learning", "modssc.transductive.methods.classic.laplace_learning:LaplaceLearningMethod", "implemented")
  ; ("lazy_random_walk", "modssc.transductive.methods.classic.lazy_random_walk:LazyRandomWalkMethod", "implemented")
  ; ("dynamic_label_propagation", "modssc.transductive.methods.classic.dynamic_label_propagation:DynamicLabelPropagationMethod", "implemented")
  ; ("graph_mincuts", "modssc.transductive.methods.classic.graph_mincuts:GraphMincutsMethod", "implemented")
  ; ("tsvm", "modssc.transductive.methods.classic.tsvm:TSVMMethod", "implemented")
  ; ("poisson_learning", "modssc.transductive.methods.pde.poisson_learning:PoissonLearningMethod", "implemented")
  ; ("poisson_mbo", "modssc.transductive.methods.pde.poisson_mbo:PoissonMBOMethod", "implemented")
  ; ("p_laplace_learning", "modssc.transductive.methods.pde.p_laplace_learning:PLaplaceLearningMethod", "implemented")
  ; ("chebnet", "modssc.transductive.methods.gnn.chebnet:ChebNetMethod", "implemented")
  ; ("planetoid", "modssc.transductive.methods.gnn.planetoid:PlanetoidMethod", "implemented")
  ; ("gcn", "modssc.transductive.methods.gnn.gcn:GCNMethod", "implemented")
  ; ("graphsage", "modssc.transductive.methods.gnn.graphsage:GraphSAGEMethod", "implemented")
  ; ("gat", "modssc.transductive.methods.gnn.gat:GATMethod", "implemented")
  ; ("sgc", "modssc.transductive.methods.gnn.sgc:SGCMethod", "implemented")
  ; ("appnp", "modssc.transductive.methods.gnn.appnp:APPNPMethod", "implemented")
  ; ("h_gcn", "modssc.transductive.methods.gnn.h_gcn:HGCNMethod", "implemented")
  ; ("n_gcn", "modssc.transductive.methods.gnn.n_gcn:NGCNMethod", "implemented")
  ; ("graphhop", "modssc.transductive.methods.gnn.graphhop:GraphHopMethod", "implemented")
  ; ("grafn", "modssc.transductive.methods.gnn.grafn:GraFNMethod", "implemented")
  ; ("gcnii", "modssc.transductive.methods.gnn.gcnii:GCNIIMethod", "implemented")
  ; ("grand", "modssc.transductive.methods.gnn.grand:GRANDMethod", "implemented") ].

(* ---- supervised/registry.py *)
Record backend := { be_factory : string; be_extra : option string; be_gpu : bool; be_notes : string }.
Record classifier := { cl_description : string; cl_preferred : list string; cl_backends : list (string * backend) }.
Record entry := { en_key : string; en_description : string; en_preferred : list string; en_backends : list (string * backend) }.
Definition classifiers := list (string * classifier).
Definition same_strings (a b : list string) : bool := if list_eq_dec string_dec a b then true else false.
(* lines 13-30 register_classifier *)
Definition register_classifier (reg : classifiers) (key description : string) (preferred : list string) : result classifiers :=
  match dget reg key with
  | Some c => if negb (String.eqb (cl_description c) description) || negb (same_strings (cl_preferred c) preferred) then Err ValueError else Ok reg
  | None => Ok (dput reg key {| cl_description := description; cl_preferred := preferred; cl_backends := [] |})
  end.
(* lines 33-55 register_backend; UnknownClassifierError is a SupervisedError *)
Definition register_backend (reg : classifiers) (key name : string) (b : backend) : result classifiers :=
  match dget reg key with
  | None => Err SupervisedError
  | Some c => match dget (cl_backends c) name with
              | Some _ => Err ValueError
              | None => Ok (dput reg key {| cl_description := cl_description c; cl_preferred := cl_preferred c; cl_backends := dput (cl_backends c) name b |})
              end
  end.
(* lines 58-72 _register_builtin_classifier: what was registered before an exception stays *)
Fixpoint register_backends (reg : classifiers) (key : string) (bs : list (string * backend)) : classifiers * option exn :=
  match bs with
  | [] => (reg, None)
  | (n, b) :: r => match register_backend reg key n b with Ok reg' => register_backends reg' key r | Err e => (reg, Some e) end
  end.
Fixpoint register_entries (es : list entry) (reg : classifiers) : classifiers * option exn :=
  match es with
  | [] => (reg, None)
  | e :: r => match register_classifier reg (en_key e) (en_description e) (en_preferred e) with
              | Err x => (reg, Some x)
              | Ok reg1 => match register_backends reg1 (en_key e) (en_backends e) with
                           | (reg2, None) => register_entries r reg2
                           | (reg2, Some x) => (reg2, Some x)
                           end
              end
  end.
Section Classifiers.
Variable shipped : list entry.
(* lines 75-81 ensure_bootstrap; the second component is _BOOTSTRAPPED *)
Definition ensure_bootstrap (st : classifiers * bool) : (classifiers * bool) * option exn :=
  if snd st then (st, None)
  else match register_entries shipped (fst st) with (reg, None) => ((reg, true), None) | (reg, Some e) => ((reg, false), Some e) end.
Inductive clf_call := AddClassifier (key description : string) (preferred : list string) | AddBackend (key name : string) (b : backend) | ListAll | GetSpec (key : string) | GetBackend (key name : string).
Inductive clf_answer := Done | Keys (l : list string) | Spec (c : classifier) | Backend (b : backend).
(* lines 84-107 *)
Definition clf_step (st : classifiers * bool) (c : clf_call) : (classifiers * bool) * result clf_answer :=
  match c with
  | AddClassifier k d p => match register_classifier (fst st) k d p with Ok reg => ((reg, snd st), Ok Done) | Err e => (st, Err e) end
  | AddBackend k n b => match register_backend (fst st) k n b with Ok reg => ((reg, snd st), Ok Done) | Err e => (st, Err e) end
  | ListAll => let (st', e) := ensure_bootstrap st in (st', match e with Some e => Err e | None => Ok (Keys (sortS (map fst (fst st')))) end)
  | GetSpec k => let (st', e) := ensure_bootstrap st in
                 (st', match e with Some e => Err e | None => match dget (fst st') k with Some c => Ok (Spec c) | None => Err SupervisedError end end)
  | GetBackend k n => let (st', e) := ensure_bootstrap st in
                      (st', match e with Some e => Err e | None => match dget (fst st') k with
                                                                  | None => Err SupervisedError
                                                                  | Some c => match dget (cl_backends c) n with Some b => Ok (Backend b) | None => Err UnknownBackendError end
                                                                  end end)
  end.
Definition clf_run (st : classifiers * bool) (cs : list clf_call) : classifiers * bool := fold_left (fun st c => fst (clf_step st c)) cs st.
End Classifiers.
(* supervised/registry_data.py lines 3-310 *)
Definition shipped_classifiers : list entry :=
  [ {| en_key := "knn"; en_description := "k-nearest neighbors classifier (classic baseline)."; en_preferred := ["sklearn"; "numpy"]; en_backends := [("numpy", {| be_factory := "modssc.supervised.backends.numpy.knn:NumpyKNNClassifier"; be_extra := None; be_gpu := false; be_notes := "Pure numpy implementation (slow for large n)." |}); ("torch", {| be_factory := "modssc.supervised.backends.torch.knn:TorchKNNClassifier"; be_extra := Some "supervised-torch"; be_gpu := true; be_notes := "Torch implementation (CPU/GPU depending on tensors device)." |}); ("sklearn", {| be_factory := "modssc.supervised.backends.sklearn.knn:SklearnKNNClassifier"; be_extra := Some "sklearn"; be_gpu := false; be_notes := "Uses scikit-learn KNeighborsClassifier." |})] |}
  ; {| en_key := "svm_rbf"; en_description := "Support Vector Machine with RBF kernel (classic baseline)."; en_preferred := ["sklearn"]; en_backends := [("sklearn", {| be_factory := "modssc.supervised.backends.sklearn.svm_rbf:SklearnSVRBFClassifier"; be_extra := Some "sklearn"; be_gpu := false; be_notes := "Uses scikit-learn SVC(kernel='rbf')." |})] |}
  ; {| en_key := "logreg"; en_description := "Multinomial logistic regression (classic baseline)."; en_preferred := ["sklearn"]; en_backends := [("sklearn", {| be_factory := "modssc.supervised.backends.sklearn.logreg:SklearnLogRegClassifier"; be_extra := Some "sklearn"; be_gpu := false; be_notes := "Uses scikit-learn LogisticRegression." |}); ("torch", {| be_factory := "modssc.supervised.backends.torch.logreg:TorchLogRegClassifier"; be_extra := Some "supervised-torch"; be_gpu := true; be_notes := "Torch implementation (CPU/GPU depending on tensors device)." |})] |}
  ; {| en_key := "mlp"; en_description := "Multilayer perceptron classifier (torch)."; en_preferred := ["torch"]; en_backends := [("torch", {| be_factory := "modssc.supervised.backends.torch.mlp:TorchMLPClassifier"; be_extra := Some "supervised-torch"; be_gpu := true; be_notes := "Torch MLP for vector features." |})] |}
  ; {| en_key := "image_cnn"; en_description := "Small CNN for image tensors (torch)."; en_preferred := ["torch"]; en_backends := [("torch", {| be_factory := "modssc.supervised.backends.torch.image_cnn:TorchImageCNNClassifier"; be_extra := Some "supervised-torch"; be_gpu := true; be_notes := "Torch CNN for image inputs (N, C, H, W)." |})] |}
  ; {| en_key := "image_pretrained"; en_description := "Torchvision pretrained image classifier (fine-tunable)."; en_preferred := ["torch"]; en_backends := [("torch", {| be_factory := "modssc.supervised.backends.torch.image_pretrained:TorchImagePretrainedClassifier"; be_extra := Some "vision"; be_gpu := true; be_notes := "Torchvision pretrained backbone with a replaceable head." |})] |}
  ; {| en_key := "audio_cnn"; en_description := "Small 1D CNN for audio tensors (torch)."; en_preferred := ["torch"]; en_backends := [("torch", {| be_factory := "modssc.supervised.backends.torch.audio_cnn:TorchAudioCNNClassifier"; be_extra := Some "supervised-torch"; be_gpu := true; be_notes := "Torch CNN for audio inputs (N, C, L)." |})] |}
  ; {| en_key := "audio_pretrained"; en_description := "Torchaudio pretrained audio classifier (fine-tunable)."; en_preferred := ["torch"]; en_backends := [("torch", {| be_factory := "modssc.supervised.backends.torch.audio_pretrained:TorchAudioPretrainedClassifier"; be_extra := Some "audio"; be_gpu := true; be_notes := "Torchaudio pretrained backbone with a linear head." |})] |}
  ; {| en_key := "text_cnn"; en_description := "Text CNN for sequence embeddings (torch)."; en_preferred := ["torch"]; en_backends := [("torch", {| be_factory := "modssc.supervised.backends.torch.text_cnn:TorchTextCNNClassifier"; be_extra := Some "supervised-torch"; be_gpu := true; be_notes := "Torch CNN for text inputs (N, L, D) or (N, D, L)." |})] |}
  ; {| en_key := "linear_svm"; en_description := "Linear SVM classifier (hinge loss)."; en_preferred := ["sklearn"]; en_backends := [("sklearn", {| be_factory := "modssc.supervised.backends.sklearn.linear_svm:SklearnLinearSVMClassifier"; be_extra := Some "sklearn"; be_gpu := false; be_notes := "Uses scikit-learn LinearSVC (no predict_proba)." |})] |}
  ; {| en_key := "ridge"; en_description := "Ridge classifier (linear model)."; en_preferred := ["sklearn"]; en_backends := [("sklearn", {| be_factory := "modssc.supervised.backends.sklearn.ridge:SklearnRidgeClassifier"; be_extra := Some "sklearn"; be_gpu := false; be_notes := "Uses scikit-learn RidgeClassifier (no predict_proba)." |})] |}
  ; {| en_key := "random_forest"; en_description := "Random Forest classifier."; en_preferred := ["sklearn"]; en_backends := [("sklearn", {| be_factory := "modssc.supervised.backends.sklearn.random_forest:SklearnRandomForestClassifier"; be_extra := Some "sklearn"; be_gpu := false; be_notes := "Uses scikit-learn RandomForestClassifier." |})] |}
  ; {| en_key := "extra_trees"; en_description := "Extra Trees classifier."; en_preferred := ["sklearn"]; en_backends := [("sklearn", {| be_factory := "modssc.supervised.backends.sklearn.extra_trees:SklearnExtraTreesClassifier"; be_extra := Some "sklearn"; be_gpu := false; be_notes := "Uses scikit-learn ExtraTreesClassifier." |})] |}
  ; {| en_key := "gradient_boosting"; en_description := "Gradient Boosting classifier."; en_preferred := ["sklearn"]; en_backends := [("sklearn", {| be_factory := "modssc.supervised.backends.sklearn.gradient_boosting:SklearnGradientBoostingClassifier"; be_extra := Some "sklearn"; be_gpu := false; be_notes := "Uses scikit-learn GradientBoostingClassifier." |})] |}
  ; {| en_key := "gaussian_nb"; en_description := "Gaussian Naive Bayes classifier."; en_preferred := ["sklearn"]; en_backends := [("sklearn", {| be_factory := "modssc.supervised.backends.sklearn.naive_bayes:SklearnGaussianNBClassifier"; be_extra := Some "sklearn"; be_gpu := false; be_notes := "Uses scikit-learn GaussianNB." |})] |}
  ; {| en_key := "multinomial_nb"; en_description := "Multinomial Naive Bayes classifier."; en_preferred := ["sklearn"]; en_backends := [("sklearn", {| be_factory := "modssc.supervised.backends.sklearn.naive_bayes:SklearnMultinomialNBClassifier"; be_extra := Some "sklearn"; be_gpu := false; be_notes := "Uses scikit-learn MultinomialNB." |})] |}
  ; {| en_key := "bernoulli_nb"; en_description := "Bernoulli Naive Bayes classifier."; en_preferred := ["sklearn"]; en_backends := [("sklearn", {| be_factory := "modssc.supervised.backends.sklearn.naive_bayes:SklearnBernoulliNBClassifier"; be_extra := Some "sklearn"; be_gpu := false; be_notes := "Uses scikit-learn BernoulliNB." |})] |}
  ; {| en_key := "lstm_scratch"; en_description := "LSTM from scratch for text sequences (Tabula Rasa)."; en_preferred := ["torch"]; en_backends := [("torch", {| be_factory := "modssc.supervised.backends.torch.lstm_scratch:TorchLSTMClassifier"; be_extra := Some "supervised-torch"; be_gpu := true; be_notes := "Custom LSTM implementation." |})] |}
  ; {| en_key := "audio_cnn_scratch"; en_description := "2D CNN for Spectrograms from scratch (Tabula Rasa)."; en_preferred := ["torch"]; en_backends := [("torch", {| be_factory := "modssc.supervised.backends.torch.audio_cnn_scratch:TorchAudioCNNClassifier"; be_extra := Some "supervised-torch"; be_gpu := true; be_notes := "Custom 2D CNN implementation." |})] |}
  ; {| en_key := "graphsage_inductive"; en_description := "GraphSAGE Inductive (Tabula Rasa)."; en_preferred := ["torch"]; en_backends := [("torch", {| be_factory := "modssc.supervised.backends.torch.graphsage_inductive:TorchGraphSAGEClassifier"; be_extra := Some "supervised-torch-geometric"; be_gpu := true; be_notes := "Custom GraphSAGE implementation." |})] |} ].

(* ---- data_augmentation/registry.py *)
(* which class object: one of the user's, or the one made by the k-th execution of a module of ops/ *)
Inductive class_id := Mine (n : nat) | Shipped (name : string) (k : nat).
Definition same_class (a b : class_id) : bool :=
  match a, b with
  | Mine m, Mine n => Nat.eqb m n
  | Shipped s j, Shipped t k => String.eqb s t && Nat.eqb j k
  | _, _ => false
  end.
(* a class: the object and what hasattr and getattr see *)
Record op_class := { oc_class : class_id; oc_op_id : option string; oc_modality : option string }.
Definition runtime_ops := list (string * op_class).
(* lines 52-67 register_op *)
Definition register_op (rt : runtime_ops) (id : string) (c : op_class) : result runtime_ops :=
  if match dget rt id with Some c' => negb (same_class (oc_class c') (oc_class c)) | None => false end then Err DataAugmentationError
  else match oc_op_id c, oc_modality c with
       | Some _, Some _ => Ok (dput rt id c)
       | _, _ => Err DataAugmentationError
       end.
(* a class of ops/*.py under @register_op *)
Record decorated := { de_id : string; de_class : string; de_op_id : string; de_modality : string }.
Definition made (d : decorated) (k : nat) : op_class := {| oc_class := Shipped (de_class d) k; oc_op_id := Some (de_op_id d); oc_modality := Some (de_modality d) |}.
(* executing the body of a module of ops/: what was registered before an exception stays *)
Fixpoint execute (ds : list decorated) (k : nat) (rt : runtime_ops) : runtime_ops * option exn :=
  match ds with
  | [] => (rt, None)
  | d :: r => match register_op rt (de_id d) (made d k) with Ok rt' => execute r k rt' | Err e => (rt, Some e) end
  end.
(* _RUNTIME_OPS, the modules of ops/ in sys.modules with the execution that made them, and the number of executions *)
Record op_state := { os_rt : runtime_ops; os_loaded : list (string * nat); os_count : nat }.
Definition no_ops : op_state := {| os_rt := []; os_loaded := []; os_count := 0 |}.
Section Ops.
Variable catalogue : list (string * (string * string * string)).     (* id, module, class, modality *)
Variable modules : list (string * list decorated).
(* import_module(m): a module whose body raised is not kept; the ImportError of a missing module is a RuntimeError here *)
Definition import_ops (st : op_state) (m : string) : op_state * option exn :=
  match dget (os_loaded st) m with
  | Some _ => (st, None)
  | None =>
    match dget modules m with
    | None => (st, Some RuntimeError)
    | Some ds =>
      let k := os_count st in
      let (rt, e) := execute ds k (os_rt st) in
      ({| os_rt := rt; os_loaded := match e with None => dput (os_loaded st) m k | Some _ => os_loaded st end; os_count := S k |}, e)
    end
  end.
(* getattr(module, name) *)
Definition attribute (st : op_state) (m c : string) : result op_class :=
  match dget (os_loaded st) m, dget modules m with
  | Some k, Some ds => match find (fun d => String.eqb (de_class d) c) ds with Some d => Ok (made d k) | None => Err AttributeError end
  | _, _ => Err AttributeError
  end.
(* lines 70-86 _get_cls, utils/imports.py lines 7-16 load_object *)
Definition get_cls (st : op_state) (id : string) : op_state * result op_class :=
  match dget (os_rt st) id with
  | Some c => (st, Ok c)
  | None => match dget catalogue id with
            | None => (st, Err DataAugmentationError)
            | Some (m, c, _) => let (st', e) := import_ops st m in (st', match e with Some e => Err e | None => attribute st' m c end)
            end
  end.
(* data_augmentation/registry.py lines 89-104 available_ops; set union *)
Definition all_ids (rt : runtime_ops) : list string :=
  sortS (map fst catalogue ++ filter (fun k => match dget catalogue k with Some _ => false | None => true end) (map fst rt)).
Definition available_ops (rt : runtime_ops) (modality : option string) : list string :=
  match modality with
  | None => all_ids rt
  | Some m => filter (fun id => let cm := match dget rt id with
                                          | Some c => match oc_modality c with Some x => x | None => "any" end
                                          | None => match dget catalogue id with Some p => snd p | None => "any" end
                                          end in String.eqb cm m || String.eqb cm "any") (all_ids rt)
  end.
Inductive op_call := AddOp (id : string) (c : op_class) | GetOp (id : string) | ListOps (modality : option string).
Inductive op_answer := Added | Got (c : op_class) | Listed (l : list string).
Definition op_step (st : op_state) (c : op_call) : op_state * result op_answer :=
  match c with
  | AddOp id c => match register_op (os_rt st) id c with
                  | Ok rt => ({| os_rt := rt; os_loaded := os_loaded st; os_count := os_count st |}, Ok Added)
                  | Err e => (st, Err e)
                  end
  | GetOp id => let (st', r) := get_cls st id in (st', match r with Ok c => Ok (Got c) | Err e => Err e end)
  | ListOps m => (st, Ok (Listed (available_ops (os_rt st) m)))
  end.
Definition op_run (st : op_state) (cs : list op_call) : op_state := fold_left (fun st c => fst (op_step st c)) cs st.
End Ops.
(* data_augmentation/registry.py lines 14-49 *)
Definition shipped_catalogue : list (string * (string * string * string)) :=
  [ ("audio.add_noise", ("modssc.data_augmentation.ops.audio", "AddNoise", "audio"))
  ; ("audio.time_shift", ("modssc.data_augmentation.ops.audio", "TimeShift", "audio"))
  ; ("core.ensure_float32", ("modssc.data_augmentation.ops.core", "EnsureFloat32", "any"))
  ; ("core.identity", ("modssc.data_augmentation.ops.core", "Identity", "any"))
  ; ("graph.edge_dropout", ("modssc.data_augmentation.ops.graph", "EdgeDropout", "graph"))
  ; ("graph.feature_mask", ("modssc.data_augmentation.ops.graph", "FeatureMask", "graph"))
  ; ("tabular.feature_dropout", ("modssc.data_augmentation.ops.tabular", "FeatureDropout", "tabular"))
  ; ("tabular.gaussian_noise", ("modssc.data_augmentation.ops.tabular", "GaussianNoise", "tabular"))
  ; ("tabular.swap_noise", ("modssc.data_augmentation.ops.tabular", "SwapNoise", "tabular"))
  ; ("text.lowercase", ("modssc.data_augmentation.ops.text", "Lowercase", "text"))
  ; ("text.random_swap", ("modssc.data_augmentation.ops.text", "RandomSwap", "text"))
  ; ("text.token_mask", ("modssc.data_augmentation.ops.text", "TokenMask", "text"))
  ; ("text.token_swap", ("modssc.data_augmentation.ops.text", "TokenSwap", "text"))
  ; ("text.word_dropout", ("modssc.data_augmentation.ops.text", "WordDropout", "text"))
  ; ("vision.cutout", ("modssc.data_augmentation.ops.vision", "Cutout", "vision"))
  ; ("vision.gaussian_noise", ("modssc.data_augmentation.ops.vision", "GaussianNoise", "vision"))
  ; ("vision.random_crop_pad", ("modssc.data_augmentation.ops.vision", "RandomCropPad", "vision"))
  ; ("vision.random_horizontal_flip", ("modssc.data_augmentation.ops.vision", "RandomHorizontalFlip", "vision")) ].
(* data_augmentation/ops/*.py: the decorated classes of each module in order *)
Definition shipped_modules : list (string * list decorated) :=
  [ ("modssc.data_augmentation.ops.audio",
     [{| de_id := "audio.add_noise"; de_class := "AddNoise"; de_op_id := "audio.add_noise"; de_modality := "audio" |}; {| de_id := "audio.time_shift"; de_class := "TimeShift"; de_op_id := "audio.time_shift"; de_modality := "audio" |}])
  ; ("modssc.data_augmentation.ops.core",
     [{| de_id := "core.identity"; de_class := "Identity"; de_op_id := "core.identity"; de_modality := "any" |}; {| de_id := "core.ensure_float32"; de_class := "EnsureFloat32"; de_op_id := "core.ensure_float32"; de_modality := "any" |}])
  ; ("modssc.data_augmentation.ops.graph",
     [{| de_id := "graph.edge_dropout"; de_class := "EdgeDropout"; de_op_id := "graph.edge_dropout"; de_modality := "graph" |}; {| de_id := "graph.feature_mask"; de_class := "FeatureMask"; de_op_id := "graph.feature_mask"; de_modality := "graph" |}])
  ; ("modssc.data_augmentation.ops.tabular",
     [{| de_id := "tabular.gaussian_noise"; de_class := "GaussianNoise"; de_op_id := "tabular.gaussian_noise"; de_modality := "tabular" |}; {| de_id := "tabular.feature_dropout"; de_class := "FeatureDropout"; de_op_id := "tabular.feature_dropout"; de_modality := "tabular" |}; {| de_id := "tabular.swap_noise"; de_class := "SwapNoise"; de_op_id := "tabular.swap_noise"; de_modality := "tabular" |}])
  ; ("modssc.data_augmentation.ops.text",
     [{| de_id := "text.lowercase"; de_class := "Lowercase"; de_op_id := "text.lowercase"; de_modality := "text" |}; {| de_id := "text.word_dropout"; de_class := "WordDropout"; de_op_id := "text.word_dropout"; de_modality := "text" |}; {| de_id := "text.random_swap"; de_class := "RandomSwap"; de_op_id := "text.random_swap"; de_modality := "text" |}; {| de_id := "text.token_mask"; de_class := "TokenMask"; de_op_id := "text.token_mask"; de_modality := "text" |}; {| de_id := "text.token_swap"; de_class := "TokenSwap"; de_op_id := "text.token_swap"; de_modality := "text" |}])
  ; ("modssc.data_augmentation.ops.vision",
     [{| de_id := "vision.random_horizontal_flip"; de_class := "RandomHorizontalFlip"; de_op_id := "vision.random_horizontal_flip"; de_modality := "vision" |}; {| de_id := "vision.gaussian_noise"; de_class := "GaussianNoise"; de_op_id := "vision.gaussian_noise"; de_modality := "vision" |}; {| de_id := "vision.cutout"; de_class := "Cutout"; de_op_id := "vision.cutout"; de_modality := "vision" |}; {| de_id := "vision.random_crop_pad"; de_class := "RandomCropPad"; de_op_id := "vision.random_crop_pad"; de_modality := "vision" |}]) ].

(* ---- data_loader/uri.py *)
Record parsed := { pu_provider : string; pu_reference : string }.
(* lines 13-15 *)
Definition uri_of (p : parsed) : string := (pu_provider p ++ ":" ++ pu_reference p)%string.
Section Uri.
Variable space : ascii -> bool.            (* str.isspace on one character *)
(* s.strip() *)
Fixpoint lstrip (s : list ascii) : list ascii := match s with a :: r => if space a then lstrip r else s | [] => [] end.
Definition strip (s : string) : string := string_of_list_ascii (rev (lstrip (rev (lstrip (list_ascii_of_string s))))).
(* s.split(":", 1) *)
Fixpoint split_first (s : string) : string * string :=
  match s with
  | EmptyString => ("", "")
  | String a r => if Ascii.eqb a ":" then ("", r) else let (p, q) := split_first r in (String a p, q)
  end.
(* lines 18-22 is_uri *)
Definition is_uri (s : string) : bool :=
  if negb (has_colon s) then false
  else let (p, q) := split_first s in negb (String.eqb (strip p) "") && negb (String.eqb (strip q) "").
(* lines 25-33 parse_uri; InvalidDatasetURIError is a RuntimeError *)
Definition parse_uri (s : string) : result parsed :=
  if negb (has_colon s) then Err RuntimeError
  else
    let (p, q) := split_first s in
    let p := strip p in
    let q := strip q in
    if String.eqb p "" || String.eqb q "" then Err RuntimeError else Ok {| pu_provider := p; pu_reference := q |}.
End Uri.
