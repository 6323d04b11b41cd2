F='Model/SaveText.v'
M=[
 (F,'if (votes[i] > most_voted_votes) {','if (votes[i] < most_voted_votes) {','forest_predict_majority_func: < instead of >','C147'),
 (F,'int32_t most_voted_votes = 0;\n        for (int32_t i=0;','int32_t most_voted_votes = 0;\n        for (int32_t i=1;','forest_predict_majority_func: loop starts at 1','C147'),
 (F,'votes[_class] += 1;"','votes[_class] = 1;"','tree_vote_classifier: set instead of added','C147'),
 (F,'most_voted_votes = votes[i];','most_voted_votes = votes[0];','forest_predict_majority_func: wrong votes remembered','C147'),
 (F,'                most_voted_class = i;\n                most_voted_votes','                most_voted_class = 0;\n                most_voted_votes','forest_predict_majority_func: wrong class remembered','C147'),
 (F,'int32_t votes[" ++ fmt_int n_classes','int32_t votes[" ++ fmt_int (n_classes - 1)','forest_predict_majority_func: array one too short','C147'),
 (F,'return avg/" ++ fmt_int n_trees','return avg/" ++ fmt_int (n_trees + 1)','forest_regressor_func: wrong mean','C147'),
 (F,'float avg = 0;','int avg = 0;','forest_regressor_func: integer sum','C147'),
 (F,'txt "avg += "','txt "avg = "','tree_vote_regressor: last tree only','C147'),
 (F,'[offset+i]/255.0f); }','[offset+i]/256.0f); }','tree_vote_leaf_proportion: divided by 256','C147,C148'),
 (F,'[offset+i]/255.0f); }','[i]/255.0f); }','tree_vote_leaf_proportion: first leaf always','C147,C148'),
 (F,'[offset+i]/255.0f); }','[offset+i]/255); }','tree_vote_leaf_proportion: integer division','C147,C148'),
 (F,'txt "offset = " ++ fmt_int n_classes ++ txt "*"','txt "offset = " ++ txt "2" ++ txt "*"','tree_vote_leaf_proportion: wrong row length','C147,C148'),
 (F,'txt "_class = " ++ name ++ txt "(features, features_length); out[_class] += 1.0f;"','txt "_class = " ++ name ++ txt "(features, features_length); out[_class] += 2.0f;"','tree_vote_proba: two votes per tree','C148'),
 (F,'''txt "int " ++ function_name ++ txt "(const " ++ ctype ++ txt " *features, int32_t features_length, float *out, int out_length) {

        int32_t _class = -1;

        for (int i=0; i<out_length; i++) {
            out[i] = 0.0f;
        }
''','''txt "int " ++ function_name ++ txt "(const " ++ ctype ++ txt " *features, int32_t features_length, float *out, int out_length) {

        int32_t _class = -1;
''','forest_proba_majority_func: output not cleared','C148'),
 (F,'''        int32_t _class = -1;

        for (int i=0; i<out_length; i++) {
            out[i] = 0.0f;
        }

        " ++ tree_predictions ++ txt "
    
        // compute mean
        for (int i=0; i<out_length; i++) {
            out[i] = out[i] / " ++ fmt_int n_trees ++ txt ";
        }
''','''        int32_t _class = -1;

        for (int i=0; i<out_length; i++) {
            out[i] = 0.0f;
        }

        " ++ tree_predictions ++ txt "
    
''','forest_proba_majority_func: not divided by the number of trees','C148'),
 (F,'float most_voted_proba = 0.0f;','int most_voted_proba = 0.0f;','forest_predict_proportions_func: integer maximum','C147'),
 (F,'                most_voted_class = i;\n                most_voted_proba = out[i];','                most_voted_class = i;','forest_predict_proportions_func: maximum not remembered','C147'),
 (F,'''float out[" ++ fmt_int n_classes ++ txt "] = {0.0f,};''','''float out[" ++ fmt_int n_classes ++ txt "] = {1.0f,};''','forest_predict_proportions_func: wrong initial value','C147'),
 (F,'''        return 0;
    }
    ".

(** trees.py:499-521 *)''','''        return 1;
    }
    ".

(** trees.py:499-521 *)''','forest_proba_majority_func: returns 1','C148'),
 (F,'''        int offset = 0;

        for (int i=0; i<out_length; i++) {
            out[i] = 0.0f;
        }
''','''        int offset = 0;

        for (int i=1; i<out_length; i++) {
            out[i] = 0.0f;
        }
''','forest_proba_proportions_func: first class not cleared','C148'),
 (F,'(votes (tree_vote_leaf_proportion leaves_name n_classes) tree_names) in\n  let forest_funcs','(votes (tree_vote_leaf_proportion leaves_name n_trees) tree_names) in\n  let forest_funcs','inline_text: number of trees for number of classes','C148'),
]
