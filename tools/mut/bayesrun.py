M=[
('Model/BayesRun.v','let* std := np_sqrt variance in','let* std := Ret variance in','nb_table: variance used as standard deviation','C113'),
('Model/BayesRun.v','let* std_log2 := np_log2 std in','let* std_log2 := np_log2 variance in','nb_table: log2 of the variance','C113'),
('Model/BayesRun.v','Ret (mk_summary m s l)) (concat model)','Ret (mk_summary s m l)) (concat model)','save_nb: mean and std swapped','C113'),
('Model/BayesRun.v','(concat model) in','(concat (rev model)) in','save_nb: classes in reverse order','C113'),
('Model/BayesRun.v','Ret (mk_bayes n_classes n_features summaries)','Ret (mk_bayes n_classes n_classes summaries)','save_nb: number of features is that of classes','C113'),
('Model/BayesRun.v','else if String.eqb method "inline" then Err RuntimeError_','else if String.eqb method "inline" then save_nb model','nb_init: inline accepted','C115'),
('Model/BayesRun.v','None => "loadable"%string','None => "inline"%string','nb_init: default is inline','C113,C115'),
('Model/BayesRun.v','| B754_zero _ | B754_infinity true','| B754_infinity true','np_log2: log2 of zero does not raise','C115'),
('Model/BayesRun.v','let* c := eml_bayes_predict junk m x length in','let* c := eml_bayes_predict junk m (rev x) length in','nb_func: features in reverse order','C113'),
]
