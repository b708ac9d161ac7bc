(** The list of oversamplers of get_all_oversamplers (queries/_queries.py 159-251)
    and the table of runtimes (queries/_runtimes.py 8-101).

    Generated from the text of /repo/smote_variants/oversampling: for each class the
    class attribute categories, the parameters of __init__, the keys of the
    dictionary built by get_params, and the defaults of ss_params set in __init__. *)

From Coq Require Import String List ZArith QArith.
From Verif Require Import Np QueryModel.
Import ListNotations.
Open Scope string_scope.
Open Scope list_scope.

Definition registry : list cls := [
  (* oversampling/_a_suwo.py 26 *)
  {| c_name := "A_SUWO"; c_cats := ["Ex"; "Clus"; "DB"; "NR"; "CD"];
     c_sig := ["proportion"; "n_neighbors"; "nn_params"; "ss_params"; "n_clus_maj"; "c_thres"; "n_jobs"; "random_state"]; c_kwargs := true;
     c_keys := ["proportion"; "n_neighbors"; "nn_params"; "n_clus_maj"; "c_thres"; "n_jobs"; "ss_params"; "random_state"; "class_name"];
     c_ss := Some {| ss_dim := 2; ss_within := "random"; ss_gauss := Some 0%nat |} |};
  (* oversampling/_adasyn.py 18 *)
  {| c_name := "ADASYN"; c_cats := ["SO"; "Ex"; "BL"; "DB"; "CD"];
     c_sig := ["n_neighbors"; "beta"; "d_th"; "nn_params"; "ss_params"; "n_jobs"; "random_state"; "proportion"]; c_kwargs := true;
     c_keys := ["n_neighbors"; "d_th"; "beta"; "nn_params"; "n_jobs"; "proportion"; "ss_params"; "random_state"; "class_name"];
     c_ss := Some {| ss_dim := 2; ss_within := "random"; ss_gauss := Some 0%nat |} |};
  (* oversampling/_adg.py 218 *)
  {| c_name := "ADG"; c_cats := ["Ex"; "Clus"];
     c_sig := ["proportion"; "kernel"; "lam"; "mu"; "k"; "gamma"; "n_jobs"; "random_state"]; c_kwargs := true;
     c_keys := ["proportion"; "kernel"; "lam"; "mu"; "k"; "gamma"; "n_jobs"; "random_state"; "class_name"];
     c_ss := None |};
  (* oversampling/_adoms.py 19 *)
  {| c_name := "ADOMS"; c_cats := ["DR"; "Ex"; "CD"];
     c_sig := ["proportion"; "n_neighbors"; "nn_params"; "n_jobs"; "random_state"]; c_kwargs := true;
     c_keys := ["proportion"; "n_neighbors"; "nn_params"; "n_jobs"; "random_state"; "class_name"];
     c_ss := None |};
  (* oversampling/_ahc.py 19 *)
  {| c_name := "AHC"; c_cats := ["CM"; "Clus"; "A"];
     c_sig := ["strategy"; "n_jobs"; "random_state"]; c_kwargs := true;
     c_keys := ["strategy"; "n_jobs"; "random_state"; "class_name"];
     c_ss := None |};
  (* oversampling/_amsco.py 60 *)
  {| c_name := "AMSCO"; c_cats := ["CM"; "M"; "Clas"; "CD"];
     c_sig := ["n_pop"; "n_iter"; "omega"; "r1"; "r2"; "nn_params"; "ss_params"; "n_jobs"; "classifier"; "random_state"]; c_kwargs := true;
     c_keys := ["n_pop"; "n_iter"; "omega"; "r1"; "r2"; "nn_params"; "ss_params"; "n_jobs"; "classifier"; "random_state"; "class_name"];
     c_ss := Some {| ss_dim := 2; ss_within := "random"; ss_gauss := None |} |};
  (* oversampling/_and_smote.py 17 *)
  {| c_name := "AND_SMOTE"; c_cats := ["Ex"; "SO"; "CD"];
     c_sig := ["proportion"; "K"; "nn_params"; "ss_params"; "n_jobs"; "random_state"]; c_kwargs := true;
     c_keys := ["proportion"; "K"; "nn_params"; "n_jobs"; "ss_params"; "random_state"; "class_name"];
     c_ss := Some {| ss_dim := 2; ss_within := "random"; ss_gauss := Some 0%nat |} |};
  (* oversampling/_ans.py 16 *)
  {| c_name := "ANS"; c_cats := ["Ex"; "SO"; "DB"; "CD"];
     c_sig := ["proportion"; "nn_params"; "ss_params"; "n_jobs"; "random_state"]; c_kwargs := true;
     c_keys := ["proportion"; "nn_params"; "n_jobs"; "ss_params"; "random_state"; "class_name"];
     c_ss := Some {| ss_dim := 2; ss_within := "random"; ss_gauss := Some 0%nat |} |};
  (* oversampling/_asmobd.py 21 *)
  {| c_name := "ASMOBD"; c_cats := ["Ex"; "NR"; "Clus"; "CD"];
     c_sig := ["proportion"; "min_samples"; "eps"; "eta"; "T_12"; "t_12"; "a"; "smoothing"; "nn_params"; "ss_params"; "n_jobs"; "random_state"]; c_kwargs := true;
     c_keys := ["proportion"; "min_samples"; "eps"; "eta"; "T_12"; "t_12"; "a"; "smoothing"; "nn_params"; "n_jobs"; "ss_params"; "random_state"; "class_name"];
     c_ss := Some {| ss_dim := 2; ss_within := "random"; ss_gauss := Some 0%nat |} |};
  (* oversampling/_assembled_smote.py 22 *)
  {| c_name := "Assembled_SMOTE"; c_cats := ["Ex"; "Clus"; "BL"; "SO"; "CD"];
     c_sig := ["proportion"; "n_neighbors"; "nn_params"; "ss_params"; "pop"; "thres"; "n_jobs"; "random_state"]; c_kwargs := true;
     c_keys := ["proportion"; "n_neighbors"; "nn_params"; "pop"; "thres"; "n_jobs"; "ss_params"; "random_state"; "class_name"];
     c_ss := Some {| ss_dim := 2; ss_within := "random"; ss_gauss := Some 0%nat |} |};
  (* oversampling/_borderline_smote.py 59 *)
  {| c_name := "Borderline_SMOTE1"; c_cats := ["SO"; "Ex"; "BL"; "CD"];
     c_sig := ["proportion"; "n_neighbors"; "k_neighbors"; "nn_params"; "ss_params"; "n_jobs"; "random_state"]; c_kwargs := true;
     c_keys := ["proportion"; "n_neighbors"; "k_neighbors"; "nn_params"; "n_jobs"; "ss_params"; "random_state"; "class_name"];
     c_ss := Some {| ss_dim := 2; ss_within := "random"; ss_gauss := Some 0%nat |} |};
  (* oversampling/_borderline_smote.py 258 *)
  {| c_name := "Borderline_SMOTE2"; c_cats := ["SO"; "Ex"; "BL"; "CD"];
     c_sig := ["proportion"; "n_neighbors"; "k_neighbors"; "nn_params"; "ss_params"; "n_jobs"; "random_state"]; c_kwargs := true;
     c_keys := ["proportion"; "n_neighbors"; "k_neighbors"; "nn_params"; "n_jobs"; "ss_params"; "random_state"; "class_name"];
     c_ss := Some {| ss_dim := 2; ss_within := "random"; ss_gauss := Some 0%nat |} |};
  (* oversampling/_cbso.py 18 *)
  {| c_name := "CBSO"; c_cats := ["Clus"; "DB"; "Ex"; "SO"; "CD"];
     c_sig := ["proportion"; "n_neighbors"; "nn_params"; "ss_params"; "C_p"; "n_jobs"; "random_state"]; c_kwargs := true;
     c_keys := ["proportion"; "n_neighbors"; "nn_params"; "C_p"; "n_jobs"; "ss_params"; "random_state"; "class_name"];
     c_ss := Some {| ss_dim := 2; ss_within := "random"; ss_gauss := Some 0%nat |} |};
  (* oversampling/_ccr.py 17 *)
  {| c_name := "CCR"; c_cats := ["Ex"];
     c_sig := ["proportion"; "energy"; "scaling"; "n_jobs"; "random_state"]; c_kwargs := true;
     c_keys := ["proportion"; "energy"; "scaling"; "n_jobs"; "random_state"; "class_name"];
     c_ss := None |};
  (* oversampling/_ce_smote.py 21 *)
  {| c_name := "CE_SMOTE"; c_cats := ["Ex"; "BL"; "Clus"; "SO"; "CD"];
     c_sig := ["proportion"; "h"; "k"; "nn_params"; "ss_params"; "alpha"; "n_jobs"; "random_state"]; c_kwargs := true;
     c_keys := ["proportion"; "h"; "k"; "nn_params"; "alpha"; "n_jobs"; "ss_params"; "random_state"; "class_name"];
     c_ss := Some {| ss_dim := 2; ss_within := "random"; ss_gauss := Some 0%nat |} |};
  (* oversampling/_cluster_smote.py 21 *)
  {| c_name := "cluster_SMOTE"; c_cats := ["Ex"; "Clus"; "CD"];
     c_sig := ["proportion"; "n_neighbors"; "nn_params"; "ss_params"; "n_clusters"; "n_jobs"; "random_state"]; c_kwargs := true;
     c_keys := ["proportion"; "n_neighbors"; "nn_params"; "n_clusters"; "n_jobs"; "ss_params"; "random_state"; "class_name"];
     c_ss := Some {| ss_dim := 2; ss_within := "random"; ss_gauss := Some 0%nat |} |};
  (* oversampling/_cure_smote.py 20 *)
  {| c_name := "CURE_SMOTE"; c_cats := ["Ex"; "Clus"];
     c_sig := ["proportion"; "n_clusters"; "noise_th"; "nn_params"; "ss_params"; "n_jobs"; "random_state"]; c_kwargs := true;
     c_keys := ["proportion"; "n_clusters"; "noise_th"; "nn_params"; "n_jobs"; "ss_params"; "random_state"; "class_name"];
     c_ss := Some {| ss_dim := 2; ss_within := "random"; ss_gauss := Some 0%nat |} |};
  (* oversampling/_dbsmote.py 78 *)
  {| c_name := "DBSMOTE"; c_cats := ["Ex"; "NR"; "Clus"; "DB"; "CD"];
     c_sig := ["proportion"; "eps"; "min_samples"; "db_iter_limit"; "nn_params"; "n_jobs"; "random_state"]; c_kwargs := true;
     c_keys := ["proportion"; "eps"; "min_samples"; "db_iter_limit"; "nn_params"; "n_jobs"; "random_state"; "class_name"];
     c_ss := None |};
  (* oversampling/_de_oversampling.py 20 *)
  {| c_name := "DE_oversampling"; c_cats := ["CM"; "Clus"; "CD"];
     c_sig := ["proportion"; "n_neighbors"; "nn_params"; "crossover_rate"; "similarity_threshold"; "n_clusters"; "n_jobs"; "random_state"]; c_kwargs := true;
     c_keys := ["proportion"; "n_neighbors"; "nn_params"; "crossover_rate"; "similarity_threshold"; "n_clusters"; "n_jobs"; "random_state"; "class_name"];
     c_ss := None |};
  (* oversampling/_deago.py 30 *)
  {| c_name := "DEAGO"; c_cats := ["Ex"; "DE"; "A"; "CD"];
     c_sig := ["proportion"; "n_neighbors"; "nn_params"; "ss_params"; "e"; "h"; "sigma"; "n_jobs"; "random_state"]; c_kwargs := true;
     c_keys := ["proportion"; "n_neighbors"; "e"; "h"; "sigma"; "ss_params"; "n_jobs"; "random_state"; "class_name"];
     c_ss := Some {| ss_dim := 2; ss_within := "random"; ss_gauss := None |} |};
  (* oversampling/_distance_smote.py 18 *)
  {| c_name := "distance_SMOTE"; c_cats := ["Ex"; "SO"; "CD"];
     c_sig := ["proportion"; "n_neighbors"; "nn_params"; "ss_params"; "n_jobs"; "random_state"]; c_kwargs := true;
     c_keys := ["proportion"; "n_neighbors"; "nn_params"; "n_jobs"; "ss_params"; "random_state"; "class_name"];
     c_ss := Some {| ss_dim := 2; ss_within := "random"; ss_gauss := Some 0%nat |} |};
  (* oversampling/_dsmote.py 43 *)
  {| c_name := "DSMOTE"; c_cats := ["CM"; "CD"];
     c_sig := ["proportion"; "n_neighbors"; "nn_params"; "rate"; "n_step"; "n_jobs"; "random_state"]; c_kwargs := true;
     c_keys := ["proportion"; "n_neighbors"; "nn_params"; "rate"; "n_step"; "n_jobs"; "random_state"; "class_name"];
     c_ss := None |};
  (* oversampling/_dsrbf.py 384 *)
  {| c_name := "DSRBF"; c_cats := ["Ex"; "Clas"; "SO"; "M"; "CD"];
     c_sig := ["proportion"; "n_neighbors"; "nn_params"; "ss_params"; "hidden_range"; "i_b"; "o_b"; "n_pop"; "n_init_pop"; "n_iter"; "n_sampling_epoch"; "n_jobs"; "random_state"]; c_kwargs := true;
     c_keys := ["proportion"; "n_neighbors"; "nn_params"; "ss_params"; "hidden_range"; "i_b"; "o_b"; "n_pop"; "n_init_pop"; "n_iter"; "n_sampling_epoch"; "n_jobs"; "random_state"; "class_name"];
     c_ss := Some {| ss_dim := 2; ss_within := "random"; ss_gauss := None |} |};
  (* oversampling/_e_smote.py 21 *)
  {| c_name := "E_SMOTE"; c_cats := ["Ex"; "DR"; "M"; "CM"; "CD"];
     c_sig := ["proportion"; "n_neighbors"; "nn_params"; "ss_params"; "min_features"; "n_jobs"; "random_state"]; c_kwargs := true;
     c_keys := ["proportion"; "n_neighbors"; "min_features"; "nn_params"; "ss_params"; "n_jobs"; "random_state"; "class_name"];
     c_ss := Some {| ss_dim := 2; ss_within := "random"; ss_gauss := None |} |};
  (* oversampling/_edge_det_smote.py 17 *)
  {| c_name := "Edge_Det_SMOTE"; c_cats := ["DB"; "BL"; "Ex"; "CD"];
     c_sig := ["proportion"; "k"; "nn_params"; "ss_params"; "n_jobs"; "random_state"]; c_kwargs := true;
     c_keys := ["proportion"; "k"; "nn_params"; "n_jobs"; "ss_params"; "random_state"; "class_name"];
     c_ss := Some {| ss_dim := 2; ss_within := "random"; ss_gauss := Some 0%nat |} |};
  (* oversampling/_g_smote.py 20 *)
  {| c_name := "G_SMOTE"; c_cats := ["Ex"; "SCmp"; "CD"];
     c_sig := ["proportion"; "n_neighbors"; "nn_params"; "ss_params"; "method"; "n_jobs"; "random_state"]; c_kwargs := true;
     c_keys := ["proportion"; "n_neighbors"; "nn_params"; "method"; "n_jobs"; "ss_params"; "random_state"; "class_name"];
     c_ss := Some {| ss_dim := 2; ss_within := "random"; ss_gauss := Some 0%nat |} |};
  (* oversampling/_gasmote.py 20 *)
  {| c_name := "GASMOTE"; c_cats := ["Ex"; "M"; "SO"; "CD"];
     c_sig := ["n_neighbors"; "nn_params"; "ss_params"; "maxn"; "n_pop"; "popl3"; "pm"; "pr"; "Ge"; "n_jobs"; "random_state"]; c_kwargs := true;
     c_keys := ["n_neighbors"; "nn_params"; "maxn"; "n_pop"; "popl3"; "pm"; "pr"; "Ge"; "n_jobs"; "ss_params"; "random_state"; "class_name"];
     c_ss := Some {| ss_dim := 2; ss_within := "random"; ss_gauss := Some 0%nat |} |};
  (* oversampling/_gaussian_smote.py 19 *)
  {| c_name := "Gaussian_SMOTE"; c_cats := ["Ex"; "CD"];
     c_sig := ["proportion"; "n_neighbors"; "nn_params"; "ss_params"; "sigma"; "n_jobs"; "random_state"]; c_kwargs := true;
     c_keys := ["proportion"; "n_neighbors"; "nn_params"; "sigma"; "n_jobs"; "ss_params"; "random_state"; "class_name"];
     c_ss := Some {| ss_dim := 2; ss_within := "random"; ss_gauss := Some 1%nat |} |};
  (* oversampling/_polynom_fit_smote.py 167 *)
  {| c_name := "polynom_fit_SMOTE_star"; c_cats := ["Ex"];
     c_sig := ["proportion"; "random_state"]; c_kwargs := true;
     c_keys := ["proportion"; "topology"; "random_state"; "class_name"];
     c_ss := None |};
  (* oversampling/_polynom_fit_smote.py 241 *)
  {| c_name := "polynom_fit_SMOTE_bus"; c_cats := ["Ex"];
     c_sig := ["proportion"; "random_state"]; c_kwargs := true;
     c_keys := ["proportion"; "topology"; "random_state"; "class_name"];
     c_ss := None |};
  (* oversampling/_polynom_fit_smote.py 315 *)
  {| c_name := "polynom_fit_SMOTE_poly"; c_cats := ["Ex"];
     c_sig := ["proportion"; "order"; "random_state"]; c_kwargs := true;
     c_keys := ["order"; "proportion"; "topology"; "random_state"; "class_name"];
     c_ss := None |};
  (* oversampling/_polynom_fit_smote.py 396 *)
  {| c_name := "polynom_fit_SMOTE_mesh"; c_cats := ["Ex"];
     c_sig := ["proportion"; "ss_params"; "random_state"]; c_kwargs := true;
     c_keys := ["proportion"; "ss_params"; "random_state"; "class_name"];
     c_ss := Some {| ss_dim := 2; ss_within := "deterministic"; ss_gauss := Some 0%nat |} |};
  (* oversampling/_gazzah.py 19 *)
  {| c_name := "Gazzah"; c_cats := ["Ex"; "DR"; "CM"];
     c_sig := ["proportion"; "n_components"; "n_jobs"; "random_state"]; c_kwargs := true;
     c_keys := ["proportion"; "n_components"; "n_jobs"; "random_state"; "class_name"];
     c_ss := None |};
  (* oversampling/_ipade_id.py 31 *)
  {| c_name := "IPADE_ID"; c_cats := ["CM"; "M"; "Clas"];
     c_sig := ["F"; "G"; "OT"; "max_it"; "dt_classifier"; "base_classifier"; "n_jobs"; "random_state"]; c_kwargs := true;
     c_keys := ["F"; "G"; "OT"; "max_it"; "n_jobs"; "dt_classifier"; "base_classifier"; "random_state"; "class_name"];
     c_ss := None |};
  (* oversampling/_ismote.py 17 *)
  {| c_name := "ISMOTE"; c_cats := ["CM"; "CD"];
     c_sig := ["n_neighbors"; "nn_params"; "ss_params"; "minority_weight"; "n_jobs"; "random_state"]; c_kwargs := true;
     c_keys := ["n_neighbors"; "nn_params"; "minority_weight"; "n_jobs"; "ss_params"; "random_state"; "class_name"];
     c_ss := Some {| ss_dim := 2; ss_within := "random"; ss_gauss := Some 0%nat |} |};
  (* oversampling/_isomap_hybrid.py 23 *)
  {| c_name := "ISOMAP_Hybrid"; c_cats := ["Ex"; "NR"; "DR"; "CM"; "CD"];
     c_sig := ["proportion"; "n_neighbors"; "nn_params"; "ss_params"; "n_components"; "smote_n_neighbors"; "n_jobs"; "random_state"]; c_kwargs := true;
     c_keys := ["proportion"; "n_neighbors"; "nn_params"; "ss_params"; "n_components"; "smote_n_neighbors"; "n_jobs"; "random_state"; "class_name"];
     c_ss := Some {| ss_dim := 2; ss_within := "random"; ss_gauss := None |} |};
  (* oversampling/_kerneladasyn.py 19 *)
  {| c_name := "KernelADASYN"; c_cats := ["DE"; "Ex"; "BL"; "CD"];
     c_sig := ["proportion"; "k"; "nn_params"; "h"; "n_jobs"; "random_state"]; c_kwargs := true;
     c_keys := ["proportion"; "k"; "nn_params"; "h"; "n_jobs"; "random_state"; "class_name"];
     c_ss := None |};
  (* oversampling/_kmeans_smote.py 20 *)
  {| c_name := "kmeans_SMOTE"; c_cats := ["Ex"; "Clus"; "CD"];
     c_sig := ["proportion"; "n_neighbors"; "nn_params"; "ss_params"; "n_clusters"; "irt"; "n_jobs"; "random_state"]; c_kwargs := true;
     c_keys := ["proportion"; "n_neighbors"; "nn_params"; "n_clusters"; "irt"; "n_jobs"; "ss_params"; "random_state"; "class_name"];
     c_ss := Some {| ss_dim := 2; ss_within := "random"; ss_gauss := Some 0%nat |} |};
  (* oversampling/_lee.py 17 *)
  {| c_name := "Lee"; c_cats := ["Ex"; "SO"; "CD"];
     c_sig := ["proportion"; "n_neighbors"; "nn_params"; "ss_params"; "rejection_level"; "n_jobs"; "random_state"]; c_kwargs := true;
     c_keys := ["proportion"; "n_neighbors"; "nn_params"; "rejection_level"; "n_jobs"; "ss_params"; "random_state"; "class_name"];
     c_ss := Some {| ss_dim := 2; ss_within := "random"; ss_gauss := Some 0%nat |} |};
  (* oversampling/_lle_smote.py 21 *)
  {| c_name := "LLE_SMOTE"; c_cats := ["Ex"; "DR"; "CD"];
     c_sig := ["proportion"; "n_neighbors"; "n_components"; "nn_params"; "ss_params"; "n_jobs"; "random_state"]; c_kwargs := true;
     c_keys := ["proportion"; "n_neighbors"; "n_components"; "nn_params"; "n_jobs"; "ss_params"; "random_state"; "class_name"];
     c_ss := Some {| ss_dim := 2; ss_within := "random"; ss_gauss := Some 0%nat |} |};
  (* oversampling/_ln_smote.py 17 *)
  {| c_name := "LN_SMOTE"; c_cats := ["Ex"; "SCmp"; "CD"];
     c_sig := ["proportion"; "n_neighbors"; "nn_params"; "n_jobs"; "random_state"]; c_kwargs := true;
     c_keys := ["proportion"; "n_neighbors"; "nn_params"; "n_jobs"; "random_state"; "class_name"];
     c_ss := None |};
  (* oversampling/_lvq_smote.py 21 *)
  {| c_name := "LVQ_SMOTE"; c_cats := ["Ex"; "A"];
     c_sig := ["proportion"; "n_neighbors"; "nn_params"; "n_clusters"; "n_jobs"; "random_state"]; c_kwargs := true;
     c_keys := ["proportion"; "n_neighbors"; "nn_params"; "n_clusters"; "n_jobs"; "random_state"; "class_name"];
     c_ss := None |};
  (* oversampling/_mct.py 17 *)
  {| c_name := "MCT"; c_cats := ["Ex"; "SCpy"];
     c_sig := ["proportion"; "n_neighbors"; "nn_params"; "ss_params"; "n_jobs"; "random_state"]; c_kwargs := true;
     c_keys := ["proportion"; "n_neighbors"; "nn_params"; "n_jobs"; "ss_params"; "random_state"; "class_name"];
     c_ss := Some {| ss_dim := 1; ss_within := "random"; ss_gauss := Some 0%nat |} |};
  (* oversampling/_mdo.py 18 *)
  {| c_name := "MDO"; c_cats := ["Ex"; "DR"; "CD"];
     c_sig := ["proportion"; "K2"; "K1_frac"; "nn_params"; "n_jobs"; "random_state"]; c_kwargs := true;
     c_keys := ["proportion"; "K2"; "K1_frac"; "nn_params"; "n_jobs"; "random_state"; "class_name"];
     c_ss := None |};
  (* oversampling/_mot2ld.py 23 *)
  {| c_name := "MOT2LD"; c_cats := ["Clus"; "SO"; "CD"];
     c_sig := ["proportion"; "n_components"; "k"; "nn_params"; "ss_params"; "d_cut"; "n_jobs"; "random_state"]; c_kwargs := true;
     c_keys := ["proportion"; "n_components"; "k"; "nn_params"; "d_cut"; "n_jobs"; "ss_params"; "random_state"; "class_name"];
     c_ss := Some {| ss_dim := 2; ss_within := "random"; ss_gauss := Some 0%nat |} |};
  (* oversampling/_msyn.py 22 *)
  {| c_name := "MSYN"; c_cats := ["Ex"; "CD"];
     c_sig := ["pressure"; "n_neighbors"; "nn_params"; "ss_params"; "n_jobs"; "random_state"; "proportion"]; c_kwargs := true;
     c_keys := ["pressure"; "n_neighbors"; "nn_params"; "ss_params"; "n_jobs"; "random_state"; "class_name"; "proportion"];
     c_ss := Some {| ss_dim := 2; ss_within := "random"; ss_gauss := None |} |};
  (* oversampling/_mwmote.py 21 *)
  {| c_name := "MWMOTE"; c_cats := ["Ex"; "Clus"; "BL"; "CD"];
     c_sig := ["proportion"; "k1"; "k2"; "k3"; "M"; "cf_th"; "cmax"; "nn_params"; "ss_params"; "n_jobs"; "random_state"]; c_kwargs := true;
     c_keys := ["proportion"; "k1"; "k2"; "k3"; "M"; "cf_th"; "cmax"; "nn_params"; "n_jobs"; "ss_params"; "random_state"; "class_name"];
     c_ss := Some {| ss_dim := 2; ss_within := "random"; ss_gauss := Some 0%nat |} |};
  (* oversampling/_ndo_sampling.py 20 *)
  {| c_name := "NDO_sampling"; c_cats := ["Ex"; "SO"; "A"; "CD"];
     c_sig := ["proportion"; "n_neighbors"; "nn_params"; "ss_params"; "T"; "n_jobs"; "random_state"]; c_kwargs := true;
     c_keys := ["proportion"; "n_neighbors"; "nn_params"; "ss_params"; "T"; "n_jobs"; "random_state"; "class_name"];
     c_ss := Some {| ss_dim := 2; ss_within := "random"; ss_gauss := None |} |};
  (* oversampling/_neater.py 21 *)
  {| c_name := "NEATER"; c_cats := ["Ex"; "BL"; "CM"; "CD"];
     c_sig := ["proportion"; "smote_n_neighbors"; "nn_params"; "ss_params"; "b"; "alpha"; "h"; "n_jobs"; "random_state"]; c_kwargs := true;
     c_keys := ["proportion"; "smote_n_neighbors"; "b"; "alpha"; "h"; "nn_params"; "ss_params"; "n_jobs"; "random_state"; "class_name"];
     c_ss := Some {| ss_dim := 2; ss_within := "random"; ss_gauss := None |} |};
  (* oversampling/_nras.py 20 *)
  {| c_name := "NRAS"; c_cats := ["SO"; "NR"; "CD"];
     c_sig := ["proportion"; "n_neighbors"; "nn_params"; "ss_params"; "t"; "n_jobs"; "random_state"]; c_kwargs := true;
     c_keys := ["proportion"; "n_neighbors"; "nn_params"; "t"; "n_jobs"; "ss_params"; "random_state"; "class_name"];
     c_ss := Some {| ss_dim := 2; ss_within := "random"; ss_gauss := Some 0%nat |} |};
  (* oversampling/_nrsboundary_smote.py 18 *)
  {| c_name := "NRSBoundary_SMOTE"; c_cats := ["Ex"; "BL"; "CD"];
     c_sig := ["proportion"; "n_neighbors"; "nn_params"; "ss_params"; "w"; "n_jobs"; "random_state"]; c_kwargs := true;
     c_keys := ["proportion"; "n_neighbors"; "nn_params"; "w"; "n_jobs"; "ss_params"; "random_state"; "class_name"];
     c_ss := Some {| ss_dim := 2; ss_within := "random"; ss_gauss := Some 0%nat |} |};
  (* oversampling/_nt_smote.py 17 *)
  {| c_name := "NT_SMOTE"; c_cats := ["Ex"; "A"; "CD"];
     c_sig := ["proportion"; "nn_params"; "ss_params"; "n_jobs"; "random_state"]; c_kwargs := true;
     c_keys := ["proportion"; "nn_params"; "n_jobs"; "ss_params"; "random_state"; "class_name"];
     c_ss := Some {| ss_dim := 3; ss_within := "random"; ss_gauss := Some 0%nat |} |};
  (* oversampling/_oups.py 18 *)
  {| c_name := "OUPS"; c_cats := ["Ex"; "SO"];
     c_sig := ["proportion"; "ss_params"; "n_jobs"; "random_state"]; c_kwargs := true;
     c_keys := ["proportion"; "n_jobs"; "ss_params"; "random_state"; "class_name"];
     c_ss := Some {| ss_dim := 2; ss_within := "random"; ss_gauss := Some 0%nat |} |};
  (* oversampling/_pdfos.py 271 *)
  {| c_name := "PDFOS"; c_cats := ["Ex"; "DE"];
     c_sig := ["proportion"; "metric_learning"; "n_jobs"; "random_state"]; c_kwargs := true;
     c_keys := ["proportion"; "n_jobs"; "random_state"; "class_name"];
     c_ss := None |};
  (* oversampling/_prowsyn.py 20 *)
  {| c_name := "ProWSyn"; c_cats := ["Ex"; "SO"; "CD"];
     c_sig := ["proportion"; "n_neighbors"; "nn_params"; "ss_params"; "L"; "theta"; "n_jobs"; "random_state"]; c_kwargs := true;
     c_keys := ["proportion"; "n_neighbors"; "nn_params"; "L"; "theta"; "n_jobs"; "ss_params"; "random_state"; "class_name"];
     c_ss := Some {| ss_dim := 2; ss_within := "random"; ss_gauss := None |} |};
  (* oversampling/_random_smote.py 16 *)
  {| c_name := "Random_SMOTE"; c_cats := ["Ex"; "SCmp"; "CD"];
     c_sig := ["proportion"; "n_neighbors"; "nn_params"; "n_jobs"; "random_state"]; c_kwargs := true;
     c_keys := ["proportion"; "n_neighbors"; "nn_params"; "n_jobs"; "random_state"; "class_name"];
     c_ss := None |};
  (* oversampling/_rose.py 16 *)
  {| c_name := "ROSE"; c_cats := ["Ex"; "SCmp"];
     c_sig := ["proportion"; "random_state"]; c_kwargs := true;
     c_keys := ["proportion"; "random_state"; "class_name"];
     c_ss := None |};
  (* oversampling/_rwo_sampling.py 17 *)
  {| c_name := "RWO_sampling"; c_cats := ["Ex"];
     c_sig := ["proportion"; "nn_params"; "ss_params"; "n_jobs"; "random_state"]; c_kwargs := true;
     c_keys := ["proportion"; "nn_params"; "n_jobs"; "ss_params"; "random_state"; "class_name"];
     c_ss := Some {| ss_dim := 1; ss_within := "random"; ss_gauss := Some 0%nat |} |};
  (* oversampling/_safe_level_smote.py 17 *)
  {| c_name := "Safe_Level_SMOTE"; c_cats := ["BL"; "Ex"; "SCmp"; "CD"];
     c_sig := ["proportion"; "n_neighbors"; "nn_params"; "n_jobs"; "random_state"]; c_kwargs := true;
     c_keys := ["proportion"; "n_neighbors"; "nn_params"; "n_jobs"; "random_state"; "class_name"];
     c_ss := None |};
  (* oversampling/_sdsmote.py 17 *)
  {| c_name := "SDSMOTE"; c_cats := ["Ex"; "SO"; "BL"; "CD"];
     c_sig := ["proportion"; "n_neighbors"; "nn_params"; "ss_params"; "n_jobs"; "random_state"]; c_kwargs := true;
     c_keys := ["proportion"; "n_neighbors"; "nn_params"; "n_jobs"; "ss_params"; "random_state"; "class_name"];
     c_ss := Some {| ss_dim := 2; ss_within := "random"; ss_gauss := Some 0%nat |} |};
  (* oversampling/_selected_smote.py 14 *)
  {| c_name := "Selected_SMOTE"; c_cats := ["Ex"; "SCmp"; "CD"];
     c_sig := ["proportion"; "n_neighbors"; "nn_params"; "perc_sign_attr"; "n_jobs"; "random_state"]; c_kwargs := true;
     c_keys := ["proportion"; "n_neighbors"; "nn_params"; "perc_sign_attr"; "n_jobs"; "random_state"; "class_name"];
     c_ss := None |};
  (* oversampling/_sl_graph_smote.py 24 *)
  {| c_name := "SL_graph_SMOTE"; c_cats := ["Ex"; "BL"; "CD"];
     c_sig := ["proportion"; "n_neighbors"; "nn_params"; "ss_params"; "n_jobs"; "random_state"]; c_kwargs := true;
     c_keys := ["proportion"; "n_neighbors"; "nn_params"; "ss_params"; "n_jobs"; "random_state"; "class_name"];
     c_ss := Some {| ss_dim := 2; ss_within := "random"; ss_gauss := None |} |};
  (* oversampling/_smmo.py 20 *)
  {| c_name := "SMMO"; c_cats := ["BL"; "Ex"; "Clas"; "CD"];
     c_sig := ["proportion"; "n_neighbors"; "ensemble"; "nn_params"; "ss_params"; "n_jobs"; "random_state"]; c_kwargs := true;
     c_keys := ["proportion"; "n_neighbors"; "ensemble"; "nn_params"; "n_jobs"; "ss_params"; "random_state"; "class_name"];
     c_ss := Some {| ss_dim := 2; ss_within := "random"; ss_gauss := Some 0%nat |} |};
  (* oversampling/_smobd.py 21 *)
  {| c_name := "SMOBD"; c_cats := ["Clus"; "DB"; "Ex"; "NR"; "CD"];
     c_sig := ["proportion"; "eta1"; "t"; "min_samples"; "nn_params"; "max_eps"; "n_jobs"; "random_state"]; c_kwargs := true;
     c_keys := ["proportion"; "eta1"; "t"; "min_samples"; "nn_params"; "max_eps"; "n_jobs"; "random_state"; "class_name"];
     c_ss := None |};
  (* oversampling/_smote_cosine.py 17 *)
  {| c_name := "SMOTE_Cosine"; c_cats := ["Ex"];
     c_sig := ["proportion"; "n_neighbors"; "n_jobs"; "random_state"]; c_kwargs := true;
     c_keys := ["proportion"; "n_neighbors"; "n_jobs"; "random_state"; "class_name"];
     c_ss := None |};
  (* oversampling/_smote_d.py 17 *)
  {| c_name := "SMOTE_D"; c_cats := ["Ex"; "CD"];
     c_sig := ["proportion"; "k"; "nn_params"; "n_jobs"; "random_state"]; c_kwargs := true;
     c_keys := ["proportion"; "k"; "nn_params"; "n_jobs"; "random_state"; "class_name"];
     c_ss := None |};
  (* oversampling/_smote_enn.py 19 *)
  {| c_name := "SMOTE_ENN"; c_cats := ["SO"; "NR"; "CM"; "CD"];
     c_sig := ["proportion"; "n_neighbors"; "nn_params"; "ss_params"; "n_jobs"; "random_state"]; c_kwargs := true;
     c_keys := ["proportion"; "n_neighbors"; "nn_params"; "ss_params"; "n_jobs"; "random_state"; "class_name"];
     c_ss := Some {| ss_dim := 2; ss_within := "random"; ss_gauss := None |} |};
  (* oversampling/_smote_frst_2t.py 22 *)
  {| c_name := "SMOTE_FRST_2T"; c_cats := ["CM"; "NR"; "SO"; "A"; "CD"];
     c_sig := ["n_neighbors"; "nn_params"; "ss_params"; "gamma_S"; "gamma_M"; "n_jobs"; "random_state"]; c_kwargs := true;
     c_keys := ["n_neighbors"; "nn_params"; "ss_params"; "gamma_S"; "gamma_M"; "n_jobs"; "random_state"; "class_name"];
     c_ss := Some {| ss_dim := 2; ss_within := "random"; ss_gauss := None |} |};
  (* oversampling/_smote_ipf.py 21 *)
  {| c_name := "SMOTE_IPF"; c_cats := ["CM"; "Clas"; "CD"];
     c_sig := ["proportion"; "n_neighbors"; "nn_params"; "ss_params"; "n_folds"; "k"; "p"; "voting"; "classifier"; "n_jobs"; "random_state"]; c_kwargs := true;
     c_keys := ["proportion"; "n_neighbors"; "nn_params"; "ss_params"; "n_folds"; "k"; "p"; "voting"; "n_jobs"; "classifier"; "random_state"; "class_name"];
     c_ss := Some {| ss_dim := 2; ss_within := "random"; ss_gauss := None |} |};
  (* oversampling/_smote_out.py 18 *)
  {| c_name := "SMOTE_OUT"; c_cats := ["Ex"; "CD"];
     c_sig := ["proportion"; "n_neighbors"; "nn_params"; "n_jobs"; "random_state"]; c_kwargs := true;
     c_keys := ["proportion"; "n_neighbors"; "nn_params"; "n_jobs"; "random_state"; "class_name"];
     c_ss := None |};
  (* oversampling/_smote_pso.py 20 *)
  {| c_name := "SMOTE_PSO"; c_cats := ["Ex"; "M"; "Clas"; "CD"];
     c_sig := ["k"; "nn_params"; "eps"; "n_pop"; "w"; "c1"; "c2"; "num_it"; "n_jobs"; "random_state"]; c_kwargs := true;
     c_keys := ["k"; "nn_params"; "eps"; "n_pop"; "w"; "c1"; "c2"; "num_it"; "n_jobs"; "random_state"; "class_name"];
     c_ss := None |};
  (* oversampling/_smote_psobat.py 21 *)
  {| c_name := "SMOTE_PSOBAT"; c_cats := ["Ex"; "Clus"; "SO"; "M"; "CD"];
     c_sig := ["maxit"; "c1"; "c2"; "c3"; "alpha"; "gamma"; "method"; "nn_params"; "ss_params"; "n_jobs"; "random_state"]; c_kwargs := true;
     c_keys := ["maxit"; "c1"; "c2"; "c3"; "alpha"; "gamma"; "method"; "nn_params"; "ss_params"; "n_jobs"; "random_state"; "class_name"];
     c_ss := Some {| ss_dim := 2; ss_within := "random"; ss_gauss := None |} |};
  (* oversampling/_smote_rsb.py 20 *)
  {| c_name := "SMOTE_RSB"; c_cats := ["Ex"; "SO"; "CD"];
     c_sig := ["proportion"; "n_neighbors"; "nn_params"; "ss_params"; "n_jobs"; "random_state"]; c_kwargs := true;
     c_keys := ["proportion"; "n_neighbors"; "nn_params"; "ss_params"; "n_jobs"; "random_state"; "class_name"];
     c_ss := Some {| ss_dim := 2; ss_within := "random"; ss_gauss := None |} |};
  (* oversampling/_smote_tomeklinks.py 17 *)
  {| c_name := "SMOTE_TomekLinks"; c_cats := ["SO"; "NR"; "CM"; "CD"];
     c_sig := ["proportion"; "n_neighbors"; "nn_params"; "ss_params"; "n_jobs"; "random_state"]; c_kwargs := true;
     c_keys := ["proportion"; "n_neighbors"; "nn_params"; "ss_params"; "n_jobs"; "random_state"; "class_name"];
     c_ss := Some {| ss_dim := 2; ss_within := "random"; ss_gauss := None |} |};
  (* oversampling/_smote.py 17 *)
  {| c_name := "SMOTE"; c_cats := ["SO"; "Ex"; "CD"];
     c_sig := ["proportion"; "n_neighbors"; "nn_params"; "ss_params"; "n_jobs"; "random_state"]; c_kwargs := true;
     c_keys := ["proportion"; "n_neighbors"; "nn_params"; "n_jobs"; "ss_params"; "random_state"; "class_name"];
     c_ss := Some {| ss_dim := 2; ss_within := "random"; ss_gauss := Some 0%nat |} |};
  (* oversampling/_sn_smote.py 17 *)
  {| c_name := "SN_SMOTE"; c_cats := ["Ex"; "SO"; "CD"];
     c_sig := ["proportion"; "n_neighbors"; "nn_params"; "ss_params"; "n_jobs"; "random_state"]; c_kwargs := true;
     c_keys := ["proportion"; "n_neighbors"; "nn_params"; "n_jobs"; "ss_params"; "random_state"; "class_name"];
     c_ss := Some {| ss_dim := 2; ss_within := "random"; ss_gauss := Some 0%nat |} |};
  (* oversampling/_soi_cj.py 19 *)
  {| c_name := "SOI_CJ"; c_cats := ["Ex"; "Clus"; "SCmp"; "CD"];
     c_sig := ["proportion"; "n_neighbors"; "nn_params"; "ss_params"; "method"; "n_jobs"; "random_state"]; c_kwargs := true;
     c_keys := ["proportion"; "n_neighbors"; "nn_params"; "method"; "n_jobs"; "ss_params"; "random_state"; "class_name"];
     c_ss := Some {| ss_dim := 1; ss_within := "random"; ss_gauss := Some 0%nat |} |};
  (* oversampling/_somo.py 22 *)
  {| c_name := "SOMO"; c_cats := ["Ex"; "Clus"; "CD"];
     c_sig := ["proportion"; "n_grid"; "sigma"; "learning_rate"; "n_iter"; "nn_params"; "ss_params"; "n_jobs"; "random_state"]; c_kwargs := true;
     c_keys := ["proportion"; "n_grid"; "sigma"; "learning_rate"; "n_iter"; "n_jobs"; "ss_params"; "random_state"; "class_name"];
     c_ss := Some {| ss_dim := 2; ss_within := "random"; ss_gauss := Some 0%nat |} |};
  (* oversampling/_spy.py 16 *)
  {| c_name := "SPY"; c_cats := ["CM"; "CD"];
     c_sig := ["n_neighbors"; "nn_params"; "threshold"; "n_jobs"; "random_state"]; c_kwargs := true;
     c_keys := ["n_neighbors"; "nn_params"; "threshold"; "random_state"; "class_name"];
     c_ss := None |};
  (* oversampling/_sso.py 25 *)
  {| c_name := "SSO"; c_cats := ["Ex"; "Clas"; "Clus"; "DB"; "CD"];
     c_sig := ["proportion"; "n_neighbors"; "nn_params"; "h"; "n_iter"; "n_jobs"; "random_state"]; c_kwargs := true;
     c_keys := ["proportion"; "n_neighbors"; "nn_params"; "h"; "n_iter"; "n_jobs"; "random_state"; "class_name"];
     c_ss := None |};
  (* oversampling/_stefanowski.py 18 *)
  {| c_name := "Stefanowski"; c_cats := ["CM"; "NR"; "SCpy"; "BL"; "CD"];
     c_sig := ["strategy"; "nn_params"; "n_jobs"; "random_state"]; c_kwargs := true;
     c_keys := ["strategy"; "nn_params"; "n_jobs"; "random_state"; "class_name"];
     c_ss := None |};
  (* oversampling/_sundo.py 20 *)
  {| c_name := "SUNDO"; c_cats := ["CM"; "A"; "CD"];
     c_sig := ["nn_params"; "n_jobs"; "random_state"]; c_kwargs := true;
     c_keys := ["nn_params"; "n_jobs"; "random_state"; "class_name"];
     c_ss := None |};
  (* oversampling/_supervised_smote.py 18 *)
  {| c_name := "Supervised_SMOTE"; c_cats := ["Ex"; "SO"; "Clas"; "A"];
     c_sig := ["proportion"; "th_lower"; "th_upper"; "classifier"; "ss_params"; "n_jobs"; "random_state"]; c_kwargs := true;
     c_keys := ["proportion"; "th_lower"; "th_upper"; "classifier"; "n_jobs"; "ss_params"; "random_state"; "class_name"];
     c_ss := Some {| ss_dim := 2; ss_within := "random"; ss_gauss := Some 0%nat |} |};
  (* oversampling/_svm_balance.py 22 *)
  {| c_name := "SVM_balance"; c_cats := ["Ex"; "Clas"; "CM"; "CD"];
     c_sig := ["proportion"; "n_neighbors"; "nn_params"; "ss_params"; "n_jobs"; "random_state"]; c_kwargs := true;
     c_keys := ["proportion"; "n_neighbors"; "nn_params"; "ss_params"; "n_jobs"; "random_state"; "class_name"];
     c_ss := Some {| ss_dim := 2; ss_within := "random"; ss_gauss := None |} |};
  (* oversampling/_symprod.py 19 *)
  {| c_name := "SYMPROD"; c_cats := ["NR"; "DB"; "SCmp"; "CD"];
     c_sig := ["proportion"; "std_outliers"; "k_neighbors"; "m_neighbors"; "cutoff_threshold"; "nn_params"; "n_jobs"; "random_state"]; c_kwargs := true;
     c_keys := ["proportion"; "std_outliers"; "k_neighbors"; "m_neighbors"; "cutoff_threshold"; "nn_params"; "random_state"; "class_name"];
     c_ss := None |};
  (* oversampling/_trim_smote.py 18 *)
  {| c_name := "TRIM_SMOTE"; c_cats := ["Ex"; "Clus"; "CD"];
     c_sig := ["proportion"; "n_neighbors"; "nn_params"; "ss_params"; "min_precision"; "n_jobs"; "random_state"]; c_kwargs := true;
     c_keys := ["proportion"; "n_neighbors"; "nn_params"; "min_precision"; "n_jobs"; "ss_params"; "random_state"; "class_name"];
     c_ss := Some {| ss_dim := 2; ss_within := "random"; ss_gauss := Some 0%nat |} |};
  (* oversampling/_v_synth.py 19 *)
  {| c_name := "V_SYNTH"; c_cats := ["Ex"; "SO"];
     c_sig := ["proportion"; "n_components"; "n_jobs"; "random_state"]; c_kwargs := true;
     c_keys := ["proportion"; "n_components"; "n_jobs"; "random_state"; "class_name"];
     c_ss := None |};
  (* oversampling/_vis_rst.py 19 *)
  {| c_name := "VIS_RST"; c_cats := ["CM"; "NR"; "CD"];
     c_sig := ["proportion"; "n_neighbors"; "nn_params"; "ss_params"; "n_jobs"; "random_state"]; c_kwargs := true;
     c_keys := ["proportion"; "n_neighbors"; "nn_params"; "n_jobs"; "ss_params"; "random_state"; "class_name"];
     c_ss := Some {| ss_dim := 2; ss_within := "random"; ss_gauss := Some 0%nat |} |};
  (* oversampling/_msmote.py 18 *)
  {| c_name := "MSMOTE"; c_cats := ["Ex"; "NR"; "BL"; "CD"];
     c_sig := ["proportion"; "n_neighbors"; "nn_params"; "n_jobs"; "random_state"]; c_kwargs := true;
     c_keys := ["proportion"; "n_neighbors"; "nn_params"; "n_jobs"; "random_state"; "class_name"];
     c_ss := None |};
  (* oversampling/_smote_amsr.py 17 *)
  {| c_name := "SMOTE_AMSR"; c_cats := ["Ex"];
     c_sig := ["proportion"; "topology"; "random_state"]; c_kwargs := false;
     c_keys := ["proportion"; "topology"; "random_state"];
     c_ss := None |};
  (* oversampling/_smotewb.py 19 *)
  {| c_name := "SMOTEWB"; c_cats := ["NR"; "Clas"; "SO"; "Ex"; "CD"];
     c_sig := ["proportion"; "n_iters"; "max_depth"; "nn_params"; "n_jobs"; "random_state"]; c_kwargs := true;
     c_keys := ["proportion"; "max_depth"; "nn_params"; "n_iters"; "random_state"; "class_name"];
     c_ss := None |}
].

Definition runtimes : list (string * Q) := [
  ("NoSMOTE", (1575469970703125 # 10000000000000000000)%Q);
  ("polynom_fit_SMOTE_bus", (33428668975830076 # 100000000000000000000)%Q);
  ("polynom_fit_SMOTE_star", (44138431549072265 # 100000000000000000000)%Q);
  ("ROSE", (48253536224365237 # 100000000000000000000)%Q);
  ("Gazzah", (9819984436035157 # 10000000000000000000)%Q);
  ("SPY", (10293960571289063 # 10000000000000000000)%Q);
  ("MSMOTE", (10655879974365234 # 10000000000000000000)%Q);
  ("AHC", (11803627014160157 # 10000000000000000000)%Q);
  ("RWO_sampling", (12227773666381836 # 10000000000000000000)%Q);
  ("polynom_fit_SMOTE_mesh", (12503862380981445 # 10000000000000000000)%Q);
  ("polynom_fit_SMOTE_poly", (13056278228759765 # 10000000000000000000)%Q);
  ("SMOTE", (14549016952514649 # 10000000000000000000)%Q);
  ("Selected_SMOTE", (1479768753051758 # 1000000000000000000)%Q);
  ("NT_SMOTE", (15209674835205077 # 10000000000000000000)%Q);
  ("G_SMOTE", (1589655876159668 # 1000000000000000000)%Q);
  ("Random_SMOTE", (16499996185302735 # 10000000000000000000)%Q);
  ("Safe_Level_SMOTE", (169680118560791 # 100000000000000000)%Q);
  ("Gaussian_SMOTE", (18160581588745118 # 10000000000000000000)%Q);
  ("MCT", (1826310157775879 # 1000000000000000000)%Q);
  ("Borderline_SMOTE1", (20763397216796873 # 10000000000000000000)%Q);
  ("CURE_SMOTE", (2085232734680176 # 1000000000000000000)%Q);
  ("Borderline_SMOTE2", (21561145782470702 # 10000000000000000000)%Q);
  ("Edge_Det_SMOTE", (2244853973388672 # 1000000000000000000)%Q);
  ("SMOTE_OUT", (23625850677490234 # 10000000000000000000)%Q);
  ("CCR", (2711176872253418 # 1000000000000000000)%Q);
  ("SMOTE_Cosine", (28854131698608397 # 10000000000000000000)%Q);
  ("SL_graph_SMOTE", (30184030532836915 # 10000000000000000000)%Q);
  ("SMMO", (3188467025756836 # 1000000000000000000)%Q);
  ("distance_SMOTE", (3262615203857422 # 1000000000000000000)%Q);
  ("CBSO", (35253286361694334 # 10000000000000000000)%Q);
  ("Lee", (36804676055908203 # 10000000000000000000)%Q);
  ("SMOTE_TomekLinks", (37401437759399412 # 10000000000000000000)%Q);
  ("SMOTE_D", (38565874099731447 # 10000000000000000000)%Q);
  ("SMOTE_RSB", (4146575927734375 # 1000000000000000000)%Q);
  ("Assembled_SMOTE", (43058633804321286 # 10000000000000000000)%Q);
  ("NDO_sampling", (4311156272888183 # 1000000000000000000)%Q);
  ("PDFOS", (4357147216796875 # 1000000000000000000)%Q);
  ("OUPS", (4824352264404297 # 1000000000000000000)%Q);
  ("NRAS", (50504207611083984 # 10000000000000000000)%Q);
  ("ISMOTE", (5362510681152344 # 1000000000000000000)%Q);
  ("SMOBD", (565187931060791 # 100000000000000000)%Q);
  ("Stefanowski", (5956506729125977 # 1000000000000000000)%Q);
  ("ANS", (623626708984375 # 100000000000000000)%Q);
  ("LN_SMOTE", (6256961822509765 # 1000000000000000000)%Q);
  ("SMOTE_AMSR", (63 # 10000)%Q);
  ("SN_SMOTE", (65546751022338865 # 10000000000000000000)%Q);
  ("AND_SMOTE", (7062482833862305 # 1000000000000000000)%Q);
  ("TRIM_SMOTE", (791945457458496 # 100000000000000000)%Q);
  ("MDO", (9374117851257325 # 1000000000000000000)%Q);
  ("SYMPROD", (9868478775024414 # 1000000000000000000)%Q);
  ("cluster_SMOTE", (11855554580688477 # 1000000000000000000)%Q);
  ("SOI_CJ", (12188553810119629 # 1000000000000000000)%Q);
  ("SMOTE_ENN", (12231278419494628 # 1000000000000000000)%Q);
  ("SOMO", (12856888771057128 # 1000000000000000000)%Q);
  ("SUNDO", (13146662712097168 # 1000000000000000000)%Q);
  ("SMOTE_FRST_2T", (14063835144042969 # 1000000000000000000)%Q);
  ("ASMOBD", (1421060562133789 # 100000000000000000)%Q);
  ("VIS_RST", (16105914115905763 # 1000000000000000000)%Q);
  ("DBSMOTE", (16603636741638183 # 1000000000000000000)%Q);
  ("ADASYN", (23564982414245605 # 1000000000000000000)%Q);
  ("V_SYNTH", (25472474098205567 # 1000000000000000000)%Q);
  ("SMOTE_IPF", (29655957221984865 # 1000000000000000000)%Q);
  ("MWMOTE", (335747241973877 # 10000000000000000)%Q);
  ("kmeans_SMOTE", (34969449043273926 # 1000000000000000000)%Q);
  ("ProWSyn", (3614718914031982 # 100000000000000000)%Q);
  ("MSYN", (3970990180969238 # 100000000000000000)%Q);
  ("NEATER", (4637973308563233 # 100000000000000000)%Q);
  ("LLE_SMOTE", (4672214984893799 # 100000000000000000)%Q);
  ("SVM_balance", (49683642387390134 # 1000000000000000000)%Q);
  ("NRSBoundary_SMOTE", (5426912307739258 # 100000000000000000)%Q);
  ("SDSMOTE", (6174941062927246 # 100000000000000000)%Q);
  ("DE_oversampling", (7008554935455322 # 100000000000000000)%Q);
  ("Supervised_SMOTE", (7257795333862305 # 100000000000000000)%Q);
  ("ISOMAP_Hybrid", (780186653137207 # 10000000000000000)%Q);
  ("LVQ_SMOTE", (9743821620941162 # 100000000000000000)%Q);
  ("ADOMS", (985065221786499 # 10000000000000000)%Q);
  ("KernelADASYN", (1399752378463745 # 10000000000000000)%Q);
  ("SSO", (1672980308532715 # 10000000000000000)%Q);
  ("CE_SMOTE", (1770571231842041 # 10000000000000000)%Q);
  ("E_SMOTE", (17706725597381592 # 100000000000000000)%Q);
  ("MOT2LD", (23347222805023193 # 100000000000000000)%Q);
  ("A_SUWO", (35372257232666016 # 100000000000000000)%Q);
  ("DSMOTE", (5619288682937622 # 10000000000000000)%Q);
  ("GASMOTE", (7379563808441162 # 10000000000000000)%Q);
  ("SMOTE_PSOBAT", (83712158203125 # 100000000000000)%Q);
  ("IPADE_ID", (219421124458313 # 100000000000000)%Q);
  ("DEAGO", (29683846950531008 # 10000000000000000)%Q);
  ("SMOTE_PSO", (32347741603851317 # 10000000000000000)%Q);
  ("ADG", (4425517630577088 # 1000000000000000)%Q);
  ("AMSCO", (1811877920627594 # 100000000000000)%Q);
  ("DSRBF", (2486799850463867 # 100000000000000)%Q);
  ("SMOTEWB", (18509192900224167 # 1000000000000000000)%Q)
].
