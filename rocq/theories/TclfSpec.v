(* What C145 and C146 say: batches, training runs, sorted classes, inputs of images and texts. *)
From Coq Require Import QArith Permutation.
From Verif Require Import Prelude DeepLossSpec TclfModel.
Local Open Scope list_scope.

(* a random permutation; a position of the largest entry *)
Definition randperm_ok {G} (randperm : G -> nat -> list nat * G) : Prop := forall g n, Permutation (fst (randperm g n)) (seq 0 n).
Definition argmax_ok (argmax : list Q -> nat) : Prop := forall p, p <> [] -> (argmax p < List.length p)%nat /\ forall x, In x p -> (x <= nth (argmax p) p 0)%Q.
(* the number of outputs of a network: the last size, which training keeps *)
Definition outputs_ok {W Op G} (build : list nat -> G -> W * G) (step : list (sample * nat) -> W -> Op -> G -> W * Op * G) (logits : W -> sample -> list Q) (outputs : W -> nat) : Prop :=
  (forall sizes g, outputs (fst (build sizes g)) = last sizes O) /\ (forall b w o g, outputs (fst (fst (step b w o g))) = outputs w) /\ forall w s, List.length (logits w s) = outputs w.
(* the values fill the shape *)
Definition filled (t : tensor) : Prop := List.length (t_data t) = volume (t_shape t).

(* the members of a batch: the sample of row i with the position of its label among the classes *)
Definition reads (t : tensor) (y classes : list Z) (i : nat) (e : sample * nat) : Prop :=
  (i < t_n t)%nat /\ fst e = (tl (t_shape t), slice t i) /\ (snd e < List.length classes)%nat /\ nth (snd e) classes 0%Z = nth i y 0%Z.
(* the batches of an epoch: every row once, at most [size] rows each, none empty, only the last one smaller *)
Definition epoch_split (size n : nat) (bs : list (list nat)) : Prop :=
  Permutation (concat bs) (seq 0 n) /\ (forall b, In b bs -> (0 < List.length b <= size)%nat) /\ forall j, (S j < List.length bs)%nat -> List.length (nth j bs []) = size.
(* steps through a list of batches *)
Inductive stepped {W Op G} (step : list (sample * nat) -> W -> Op -> G -> W * Op * G) (t : tensor) (y classes : list Z) : list (list nat) -> W * Op * G -> W * Op * G -> Prop :=
| stepped_end s : stepped step t y classes [] s s
| stepped_batch b bs B w o g s : Forall2 (reads t y classes) b B -> stepped step t y classes bs (step B w o g) s -> stepped step t y classes (b :: bs) (w, o, g) s.
(* k epochs, each in a fresh random order *)
Inductive trained {W Op G} (randperm : G -> nat -> list nat * G) (step : list (sample * nat) -> W -> Op -> G -> W * Op * G) (size : nat) (t : tensor) (y classes : list Z) : nat -> W * Op * G -> W * Op * G -> Prop :=
| trained_end s : trained randperm step size t y classes 0 s s
| trained_epoch k w o g bs s s' : epoch_split size (List.length y) bs -> concat bs = fst (randperm g (List.length y)) ->
    stepped step t y classes bs (w, o, snd (randperm g (List.length y))) s -> trained randperm step size t y classes k s s' -> trained randperm step size t y classes (S k) (w, o, g) s'.

(* what the flat classifiers (logreg, mlp) accept *)
Definition flat_data (X : option tensor) (y : option labels) : Prop :=
  exists x l, X = Some x /\ y = Some l /\ t_shape x <> [] /\ t_n x = List.length (l_data l) /\ volume (t_shape x) <> O /\ t_dev x = l_dev l.
Definition loop_ok (sp : tclf_spec) : Prop := (0 < ts_batch sp)%Z /\ (0 < ts_epochs sp)%Z.
Definition rates_ok (sp : tclf_spec) : Prop := (0 < ts_lr sp)%Q /\ (0 <= ts_dropout sp)%Q /\ (ts_dropout sp < 1)%Q /\ (0 <= ts_decay sp)%Q.

(* the value of X[i, r, c] for a tensor of shape [n; a; b] *)
Definition at3 (t : tensor) (a b i r c : nat) : Q := nth (i * (a * b) + r * b + c) (t_data t) 0%Q.
(* every item laid out as one row *)
Definition flattened (x t : tensor) : Prop := t_shape x <> [] /\ t_shape t = [t_n x; volume (tl (t_shape x))] /\ t_data t = t_data x /\ t_dev t = t_dev x.

(* the sequences a text network reads: [n; channels; length] *)
Definition sequences (l : layout) (x t : tensor) : Prop :=
  t_dev t = t_dev x /\
  ((exists n len, t_shape x = [n; len] /\ t_shape t = [n; 1%nat; len] /\ t_data t = t_data x) \/
   (exists n ch len, l = ChannelsFirst /\ t_shape x = [n; ch; len] /\ t = x) \/
   (exists n len ch, l = ChannelsLast /\ t_shape x = [n; len; ch] /\ t_shape t = [n; ch; len] /\ filled t /\
      forall i r c, (i < n)%nat -> (r < len)%nat -> (c < ch)%nat -> at3 t ch len i c r = at3 x len ch i r c)).
(* the given input_shape: positive [h; w] (one channel) or [c; h; w] *)
Definition shape_given (s : option (list Z)) (p : nat * nat * nat) : Prop :=
  let '(c, h, w) := p in (0 < c)%nat /\ (0 < h)%nat /\ (0 < w)%nat /\
  (s = Some [Z.of_nat c; Z.of_nat h; Z.of_nat w] \/ (c = 1%nat /\ s = Some [Z.of_nat h; Z.of_nat w])).
(* the images an image network reads: [n; c; h; w] with the same values *)
Definition images (known : option (nat * nat * nat)) (given : option (list Z)) (x t : tensor) (p : nat * nat * nat) : Prop :=
  let '(c, h, w) := p in
  t_dev t = t_dev x /\ t_data t = t_data x /\ t_shape t = [t_n x; c; h; w] /\
  (t_shape x = [t_n x; c; h; w] \/ (c = 1%nat /\ t_shape x = [t_n x; h; w]) \/
   (t_shape x = [t_n x; (c * h * w)%nat] /\ (known = Some p \/ (known = None /\ shape_given given p)))).

(* what a text fit needs, apart from a known activation and a decay that is not negative *)
Definition text_needs (sp : tclf_spec) (X : option tensor) (y : option labels) : Prop :=
  (exists x l t k, X = Some x /\ y = Some l /\ ts_layout sp <> OtherLayout /\ sequences (ts_layout sp) x t /\ t_n x = List.length (l_data l) /\ volume (t_shape x) <> O /\ t_dev x = l_dev l /\
     In k (ts_kernels sp) /\ (k <= Z.of_nat (nth 2 (t_shape t) O))%Z) /\
  loop_ok sp /\ ((0 < ts_lr sp)%Q /\ (0 <= ts_dropout sp)%Q /\ (ts_dropout sp < 1)%Q) /\ (0 < ts_filters sp)%Z /\ (forall k, In k (ts_kernels sp) -> (0 < k)%Z).
(* what an image fit needs once its images are read *)
Definition image_needs (sp : tclf_spec) (t : tensor) (l : labels) : Prop :=
  t_n t = List.length (l_data l) /\ volume (t_shape t) <> O /\ t_dev t = l_dev l /\ loop_ok sp /\ ((0 < ts_lr sp)%Q /\ (0 <= ts_dropout sp)%Q /\ (ts_dropout sp < 1)%Q) /\
  ts_conv sp <> [] /\ (0 < ts_kernel sp)%Z /\ (0 <= ts_fc sp)%Z /\ (forall c, In c (ts_conv sp) -> (0 < c)%Z).
(* every row of scores is a distribution over the classes, and the answer is a class with the largest score *)
Definition answers (classes : list Z) (n : nat) (P : list (list Q)) (out : list Z) : Prop :=
  table n (List.length classes) P /\ (forall r, In r P -> distribution r) /\ List.length out = n /\
  forall i, (i < n)%nat -> exists j, (j < List.length classes)%nat /\ nth i out 0%Z = nth j classes 0%Z /\ forall v, In v (nth i P []) -> (v <= nth j (nth i P []) 0)%Q.
(* the seed of a fit: the configured one, or 0 *)
Definition seed_is (sp : tclf_spec) (s : Z) : Prop := ts_seed sp = Some s \/ (ts_seed sp = None /\ s = 0%Z).
