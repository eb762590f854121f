# function | why it has no model definition of its own
io/examples.py:get_example_data_path | not modelled: returns a path of the installed package
io/examples.py:get_one_cml | not modelled: opens an example file
io/examples.py:get_75_cmls | not modelled: opens an example file
io/examples.py:get_75_cmls_min_max | not modelled: opens an example file
processing/pytorch_utils/pytorch_utils.py:set_device | not modelled: picks the torch device
processing/pytorch_utils/pytorch_utils.py:predict_batch | the network argument of `TorchInfer_model.run_inference`
processing/tensorflow_utils/inference_utils.py:get_model_from_json | not modelled: returns a keras function
processing/tensorflow_utils/inference_utils.py:get_optimizer_class | not modelled: returns a keras class
processing/tensorflow_utils/inference_utils.py:load_model_from_local | the argument `load` of `TfWrap_model.predict`
processing/tensorflow_utils/inference_utils.py:run_inference | the network argument of `TfInfer_model.wet_dry_1d_cnn`
processing/tensorflow_utils/lazy_tf.py:detect_gpu_without_tf | not modelled: runs nvidia-smi
processing/wet_dry/mlp.py:get_model_file_path | not modelled: returns a path of the installed package
spatial/interpolator.py:PointsToGridInterpolator.__init__ | abstract, does nothing
spatial/interpolator.py:PointsToGridInterpolator._interpol_func | abstract; the argument `interpol` of `Kriging_model.points_to_grid`
validation/validator.py:Validator.__init__ | does nothing
validation/validator.py:GridValidator.__init__ | not modelled: stores its arguments
validation/validator.py:GridValidator._get_cml_intersection_weights | not modelled: shapely intersections; the weights are an argument of `Validator_model.get_time_series`, specified by `PathShare_spec.path_weights`
validation/validator.py:GridValidator.plot_intersections | not modelled: plotting
validation/validator.py:PointValidator.__init__ | not modelled: class without function
validation/validator.py:PointValidator._get_cml_pair_indices | not modelled: `pass`
validation/validator.py:PointValidator.get_time_series | not modelled: `pass`
