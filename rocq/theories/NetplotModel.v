(** Model of fake_spectra/rate_network_plot.py: the numbers in the plots of the rate network.  Arrays of any shape are flattened, last
    index first; drawing is not modelled. *)
From Coq Require Import Reals List.
From Verif Require Import RatesModel.
From Verif Require GridModel TempdensModel.
Import ListNotations.
Local Open Scope R_scope.

(** An exception ends the function. *)
Definition obind {A B : Type} (o : outcome A) (f : A -> outcome B) : outcome B :=
  match o with
  | Value a => f a
  | Raised => Raised
  | NotConverged => NotConverged
  | BadResidual => BadResidual
  end.

(** rate_network_plot.py:27, 48, 60, 73, 78 with the defaults of rate_network.py:47: the table of Cen, no self-shielding.  The
    logarithms of the rates of the background at the redshift and the opacity (not used) are arguments. *)
Definition c92_network (gh0 ghe0 ghep gray_opac : R) (coll : bool) : network :=
  Network cen92 gh0 ghe0 ghep 1 coll false gray_opac 0.17 1e-7.

(** np.median(gridd); the value for an empty array is not used. *)
Definition middle (gridd : list R) : R := match TempdensModel.median gridd with Some m => m | None => 0 end.

(** rate_network_plot.py:15, 42, 84: the temperature of gas of the median density.  The helium fraction is the default one of
    rate_network.py:83 whatever the plot uses. *)
Definition shown_temp (n : network) (maxiter : nat) (gridd gridt : list R) : outcome (list R) :=
  GridModel.network_temp n maxiter (map (fun _ => middle gridd) gridt) gridt 0.24.

(** np.meshgrid of two one dimensional arrays *)
Definition meshgrid (xs ys : list R) : list R * list R :=
  (concat (map (fun _ => xs) ys), concat (map (fun y => map (fun _ => y) xs) ys)).

(** rate_network_plot.py:8-16 make_cont_plot: the points given to plt.contour as density, ordinate and value. *)
Definition make_cont_plot (zfunc : list R -> list R -> outcome (list R)) (n : network) (maxiter : nat) : outcome (list (R * R * R)) :=
  let dens := map (Rpower 10) (GridModel.linspace (-6) (-2) 100) in
  let ienergy := GridModel.linspace 100 700 100 in
  let (gridd, gridt) := meshgrid dens ienergy in
  obind (shown_temp n maxiter gridd gridt) (fun temp =>
  obind (zfunc gridd gridt) (fun z =>
  Value (combine (combine gridd (map (fun t => t / 1e4) temp)) z))).

(** rate_network_plot.py:30-34, ratio of collisplot; the second network is the one of line 28. *)
Definition collis_ratio (n nphoto : network) (maxiter : nat) (gridd gridt : list R) : outcome (list R) :=
  obind (get_neutral_fraction n maxiter gridd gridt 0.24) (fun nh0 =>
  obind (get_neutral_fraction nphoto maxiter gridd gridt 0.24) (fun nh0photo =>
  Value (zip2 Rdiv nh0 nh0photo))).

(** rate_network_plot.py:38-44 simplenh0frac *)
Definition simplenh0frac (n : network) (maxiter : nat) (gridd gridt : list R) (helium : R) : outcome (list R) :=
  let yy := helium / (4 - 4 * helium) in
  obind (shown_temp n maxiter gridd gridt) (fun temp =>
  Value (zip2 (fun d t => (1 - helium) * d * (alphaHp (recomb n) t / gH0 n * (1 + 2 * yy))) gridd temp)).

(** rate_network_plot.py:50-54, ratio of simpleplot *)
Definition simple_ratio (n : network) (maxiter : nat) (gridd gridt : list R) : outcome (list R) :=
  obind (get_neutral_fraction n maxiter gridd gridt 0.24) (fun nh0 =>
  obind (simplenh0frac n maxiter gridd gridt 0.24) (fun nh0simple =>
  Value (zip2 Rdiv nh0 nh0simple))).

(** rate_network_plot.py:62-67, ratio of neplot *)
Definition ne_ratio (n : network) (maxiter : nat) (gridd gridt : list R) : outcome (list R) :=
  obind (get_ne_by_nh n maxiter gridd gridt 0.24) (fun ne =>
  let yy := 0.24 / (4 - 4 * 0.24) in
  Value (map (fun x => x / (1 + 2 * yy)) ne)).

(** rate_network_plot.py:80-87, ratio of hefracplot.  A numpy division of 0 by 0 (no He+ at all) is not modelled. *)
Definition he_ratio (n : network) (maxiter : nat) (gridd gridt : list R) : outcome (list R) :=
  obind (get_equilib_ne n maxiter gridd gridt 0.24) (fun ne =>
  let nh := map (fun d => (1 - 0.24) * d) gridd in
  obind (shown_temp n maxiter gridd gridt) (fun temp =>
  Value (zip2 Rdiv (zip3 (fun h t e => nHep n h t e) nh temp ne) (zip3 (fun h t e => nHepp n h t e) nh temp ne)))).

(** The plots: rate_network_plot.py:25-36, 46-56, 58-69, 71-74, 76-89.  The arguments are the logarithms of the rates and the opacity. *)
Definition collisplot (gh0 ghe0 ghep o : R) (maxiter : nat) : outcome (list (R * R * R)) :=
  make_cont_plot (collis_ratio (c92_network gh0 ghe0 ghep o true) (c92_network gh0 ghe0 ghep o false) maxiter)
    (c92_network gh0 ghe0 ghep o true) maxiter.
(** rate_network_plot.py:25-36, 46-56, 58-69, 71-74, 76-89, with the definition above. *)
Definition simpleplot (gh0 ghe0 ghep o : R) (maxiter : nat) : outcome (list (R * R * R)) :=
  let n := c92_network gh0 ghe0 ghep o true in make_cont_plot (simple_ratio n maxiter) n maxiter.
(** rate_network_plot.py:25-36, 46-56, 58-69, 71-74, 76-89, with the definition above. *)
Definition neplot (gh0 ghe0 ghep o : R) (maxiter : nat) : outcome (list (R * R * R)) :=
  let n := c92_network gh0 ghe0 ghep o true in make_cont_plot (ne_ratio n maxiter) n maxiter.
(** rate_network_plot.py:25-36, 46-56, 58-69, 71-74, 76-89, with the definition above. *)
Definition hfracplot (gh0 ghe0 ghep o : R) (maxiter : nat) : outcome (list (R * R * R)) :=
  let n := c92_network gh0 ghe0 ghep o true in
  make_cont_plot (fun d u => get_neutral_fraction n maxiter d u 0.24) n maxiter.
(** rate_network_plot.py:25-36, 46-56, 58-69, 71-74, 76-89, with the definition above. *)
Definition hefracplot (gh0 ghe0 ghep o : R) (maxiter : nat) : outcome (list (R * R * R)) :=
  let n := c92_network gh0 ghe0 ghep o true in make_cont_plot (he_ratio n maxiter) n maxiter.
