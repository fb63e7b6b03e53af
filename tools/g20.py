import sys; sys.path.insert(0,'/verif/tools')
from gen import *
I=[]; a=I.append
a(thm('C69_import','import_gives','C69: importing the package creates the default dictionary, empty, and the named step patterns.',fixed=False))
a(thm('C69_calls_change_nothing','calls_change_nothing','C69: any sequence of calls and new objects, whether the calls return or raise, leaves every object that existed\n    before as it was: arrays, dictionaries, step patterns and earlier results.'))
a(thm('C69_call_outcome','call_outcome','C69: a call ends as the function of the values of its arguments says, its result is a new object with those\n    attributes, and nothing that existed has changed, also when it raises.'))
a(thm('C69_call_after_calls','call_after_calls','C69: calls made before do not matter: the outcome is a function of the values that the arguments had before them.'))
a(thm('C69_call_with_defaults','call_with_defaults','C69: a step pattern by name and no window_args: as right after the import, whatever calls were made since.'))
a(thm('C69_results_stay','results_stay','C69: the attributes of an earlier result are the same after any further calls.'))
a(thm('C69_import_stays','imported_stays','C69: the default dictionary stays empty and the named step patterns stay what they are.'))
a(thm('C69_transposed_is_new','T_is_new','C69: T() makes a new step pattern with a new array.'))
a(thm('C69_countPaths_reads','countPaths_reads','C69: countPaths() changes nothing and its outcome is a function of the result.'))
a(thm('C69_warpArea_reads','warpArea_reads','C69: warpArea() likewise.'))
a(thm('C69_warp_reads','warp_reads','C69: warp() returns a new vector, changes nothing else and its outcome is a function of the result.'))
a(thm('C69_history_goes_on','history_goes_on','C69: every sequence of proper calls runs to its end, also when some of them raise: a failed call does not keep the next one from working.'))
a(thm('C69_after_exception','after_exception','C69: in particular after a call of dtw() that raises.'))
a(ex('C69_case_history','history18')); a(ex('C69_case_goes_on','goes_on34')); a(ex('C69_case_after','after18')); a(ex('C69_case_pattern','pattern18'))
a(thm('C70_what_results_share','what_results_share','C70: the matrices and index vectors of a result are memory allocated by the call; its step pattern and window\n    arguments are the objects the call used, its query and reference the arrays given (vectors as columns).'))
a(thm('C70_own_memory','own_stays','C70: whatever happens afterwards (calls, new objects, in-place changes of anything but the memory that the call\n    allocated), the result keeps its matrices, alignment, distances and flags.'))
a(thm('C70_shared_objects','shared_follows','C70: what is shared shows the current state of the shared objects.'))
a(thm('C70_results_disjoint','results_disjoint','C70: two results never share memory that either allocated.'))
a(ex('C70_case_sharing','sharing18')); a(ex('C70_case_default_dict','default_dict_shared'))
write(20,'C69, C70: what calls leave behind and what results share.','CountPaths Warp Examples Examples8 Examples11 Heap HeapSpec HeapFrame HeapRefine HeapDtw HeapMain HeapThm Examples18 HeapGoSpec HeapGo Examples34',I)
