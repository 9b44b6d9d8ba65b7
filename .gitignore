*.vo
*.vok
*.vos
*.glob
*.aux
.*.cache
.Makefile.d
Makefile
Makefile.conf
*.timing
