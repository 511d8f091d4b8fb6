### Parts of the code that are not modelled
* Floating point: rounding, overflow, signed zeros. Integers do not overflow.
* `src/fe/tdybdm.c` beyond C65 and C79-C83 (options).
* `src/fv/share/tdymeshcustom.c` except cells (C91), the numbering of faces (C92), the cells around a vertex (C93), the attributes of faces (C94) and the areas and centres of faces (C109).
* The reading and writing of HDF5 and exodus files: `src/tdyio.c` except the output of fields (C99), the reading of
  materials (C101), of mesh files (C108) and what C16 and C30 say.
* The interpolation of face velocities to cell centres.
* The Fortran interface except for the property functions of `Tensor.v` and the functions handed over from Fortran (C103).
* Python scripts except the comparison of regression files with gold files (C106); the demonstrations other than the test problems and mesh perturbations of C98; options that only concern printing.
* Parallel execution is modelled only where data moves between processes (C25-C30, C95);
  elsewhere the functions are modelled on one process with its ghost cells.
* Errors of PETSc calls (`CHKERRQ` after calls that cannot fail in the model).
